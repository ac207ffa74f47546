(** A run is its list of steps. *)
From Coq Require Import List String Ascii Bool ZArith Arith.
From Verif Require Import BaseStr BaseMap M_Types M_Collect M_OpenAPI M_Parse M_Clean M_FS M_Service S_Service P_Act.
Import ListNotations.
Local Open Scope string_scope.

(** What no step changes: the log, the inputs and whether to cache; and before generation, the outputs. *)
Definition keeps_plan (s : Service) (w : World) (s' : Service) (w' : World) : Prop :=
  w_log w' = w_log w /\ sv_inputs s' = sv_inputs s /\ sv_cacheEnabled s' = sv_cacheEnabled s.
Definition keeps_outputs (s : Service) (w : World) (s' : Service) (w' : World) : Prop :=
  keeps_plan s w s' w' /\ sv_outputs s' = sv_outputs s.

Lemma keeps_plan_refl s w : keeps_plan s w s w.
Proof. repeat split. Qed.
Lemma keeps_plan_trans s w s1 w1 s2 w2 : keeps_plan s w s1 w1 -> keeps_plan s1 w1 s2 w2 -> keeps_plan s w s2 w2.
Proof. unfold keeps_plan. intuition congruence. Qed.
Lemma keeps_outputs_refl s w : keeps_outputs s w s w.
Proof. repeat split. Qed.
Lemma keeps_outputs_trans s w s1 w1 s2 w2 : keeps_outputs s w s1 w1 -> keeps_outputs s1 w1 s2 w2 -> keeps_outputs s w s2 w2.
Proof. unfold keeps_outputs, keeps_plan. intuition congruence. Qed.

Definition step_keeps (R : Service -> World -> Service -> World -> Prop) (a : act unit) : Prop := forall s w, preserves R a s w.

Section Order.
  Context (env : Env).

  Lemma k_dirs : step_keeps keeps_outputs (setupDirs env).
  Proof. intros s w. apply p_setupDirs; eauto using keeps_outputs_refl, keeps_outputs_trans; repeat split. Qed.
  Lemma k_create f : step_keeps keeps_outputs (runCreate env f).
  Proof. intros s w. apply p_runCreate; eauto using keeps_outputs_refl, keeps_outputs_trans; repeat split. Qed.
  Lemma k_parse f : step_keeps keeps_outputs (runParse env f).
  Proof. intros s w. apply p_runParse; eauto using keeps_outputs_refl, keeps_outputs_trans; repeat split. Qed.
  Lemma k_clean : step_keeps keeps_outputs (cleanTypes env).
  Proof. intros s w. apply p_cleanTypes; eauto using keeps_outputs_refl, keeps_outputs_trans; repeat split. Qed.
  Lemma k_cache : step_keeps keeps_outputs (Cache env).
  Proof. intros s w. apply p_cache; eauto using keeps_outputs_refl, keeps_outputs_trans; repeat split. Qed.
  Lemma k_cleanup : step_keeps keeps_outputs (cleanUp env).
  Proof. intros s w. apply p_cleanUp; eauto using keeps_outputs_refl, keeps_outputs_trans; repeat split. Qed.
  Lemma k_generate n o : step_keeps keeps_plan (runGenerate env n o).
  Proof. intros s w. apply p_runGenerate; eauto using keeps_plan_refl, keeps_plan_trans; repeat split. Qed.
  Lemma k_nothing (R : Service -> World -> Service -> World -> Prop) : (forall s w, R s w s w) -> step_keeps R (aret tt).
  Proof. intros H s w. now apply preserves_ret. Qed.

  (** An action as a list of steps, when the service and world have the property [I]. *)
  Definition is_steps (m : act unit) (l : list (event * act unit)) (s : Service) (w : World) : Prop :=
    exists es r s' w', m s w = (r, s', w') /\ run_steps l s w es r s' w'.

  Lemma is_steps_log e a s w : is_steps (_ <-- log e ;;; a) [(e, a)] s w.
  Proof.
    unfold is_steps, abind, log. fold (noted e w). destruct (a s (noted e w)) as [[r s'] w'] eqn:E.
    destruct r as [[]|x| |].
    - exists [e], (Ok tt), s', w'. split; auto. eapply rs_ok; [exact E|constructor].
    - exists [e], (Err x), s', w'. split; auto. eapply rs_stop; [exact E|discriminate].
    - exists [e], Panic, s', w'. split; auto. eapply rs_stop; [exact E|discriminate].
    - exists [e], OutOfFuel, s', w'. split; auto. eapply rs_stop; [exact E|discriminate].
  Qed.

  Lemma run_steps_app l1 l2 s w es s1 w1 es2 r s2 w2 :
    run_steps l1 s w es (Ok tt) s1 w1 -> run_steps l2 s1 w1 es2 r s2 w2 -> run_steps (l1 ++ l2) s w (es ++ es2) r s2 w2.
  Proof.
    intros H H2. remember (Ok tt) as o eqn:Eo. induction H; cbn [app].
    - exact H2.
    - eapply rs_ok; eauto.
    - congruence.
  Qed.

  Lemma run_steps_stop l1 l2 s w es r s1 w1 :
    run_steps l1 s w es r s1 w1 -> r <> Ok tt -> run_steps (l1 ++ l2) s w es r s1 w1.
  Proof.
    intros H N. induction H; cbn [app].
    - congruence.
    - eapply rs_ok; eauto.
    - eapply rs_stop; eauto.
  Qed.

  Lemma is_steps_bind (m k : act unit) l1 l2 s w :
    is_steps m l1 s w ->
    (forall s' w', m s w = (Ok tt, s', w') -> is_steps k l2 s' w') ->
    is_steps (_ <-- m ;;; k) (l1 ++ l2) s w.
  Proof.
    intros (es & r & s1 & w1 & E & H) K. unfold is_steps, abind. rewrite E. destruct r as [[]|x| |].
    - destruct (K s1 w1 E) as (es2 & r2 & s2 & w2 & E2 & H2).
      exists (es ++ es2)%list, r2, s2, w2. split; auto. eapply run_steps_app; eauto.
    - exists es, (Err x), s1, w1. split; auto. apply run_steps_stop; [auto|discriminate].
    - exists es, Panic, s1, w1. split; auto. apply run_steps_stop; [auto|discriminate].
    - exists es, OutOfFuel, s1, w1. split; auto. apply run_steps_stop; [auto|discriminate].
  Qed.

  Lemma is_steps_nil s w : is_steps (aret tt) [] s w.
  Proof. exists [], (Ok tt), s, w. split; [reflexivity|constructor]. Qed.

  Lemma is_steps_cache s0 s w :
    sv_cacheEnabled s = sv_cacheEnabled s0 -> is_steps (cacheIfEnabled env) (caching env s0) s w.
  Proof.
    intros E. change (is_steps (cacheIfEnabled env)) with (fun l s w => is_steps (cacheIfEnabled env) l s w).
    cbv beta. unfold caching. rewrite <- E.
    destruct (sv_cacheEnabled s) eqn:C.
    - destruct (is_steps_log EvCache (Cache env) s w) as (es & r & s' & w' & X & Y).
      exists es, r, s', w'. split; [|exact Y]. unfold cacheIfEnabled. unfold abind at 1, service. now rewrite C.
    - destruct (is_steps_nil s w) as (es & r & s' & w' & X & Y).
      exists es, r, s', w'. split; [|exact Y]. unfold cacheIfEnabled. unfold abind at 1, service. now rewrite C.
  Qed.

  Lemma is_steps_ext (m m' : act unit) l s w : m s w = m' s w -> is_steps m l s w -> is_steps m' l s w.
  Proof. intros E (es & r & s' & w' & X & Y). exists es, r, s', w'. split; [congruence|auto]. Qed.

  (** *** The loops *)

  Lemma creates_steps l s w :
    is_steps (runCreates env l) (map (fun i => (EvCreateInput (in_mode i), runCreate env (in_create i))) l) s w.
  Proof.
    revert s w; induction l as [|i l IH]; intros s w; cbn [runCreates map]; [apply is_steps_nil|].
    eapply is_steps_ext; [apply abind_assoc|]. apply (is_steps_bind _ _ [_]); [apply is_steps_log|auto].
  Qed.

  Lemma parses_steps l s w :
    is_steps (runParses env l) (map (fun i => (EvParseInput (in_mode i), runParse env (in_parse i))) l) s w.
  Proof.
    revert s w; induction l as [|i l IH]; intros s w; cbn [runParses map]; [apply is_steps_nil|].
    eapply is_steps_ext; [apply abind_assoc|]. apply (is_steps_bind _ _ [_]); [apply is_steps_log|auto].
  Qed.

  Lemma generates_steps n l s w :
    is_steps (runGenerates env n l)
      (map (fun no => (EvOutput (out_mode (snd no)), runGenerate env (fst no) (snd no))) (numbered n l)) s w.
  Proof.
    revert n s w; induction l as [|o l IH]; intros n s w; cbn [runGenerates numbered map]; [apply is_steps_nil|].
    eapply is_steps_ext; [apply abind_assoc|]. apply (is_steps_bind _ _ [_]); [apply is_steps_log|auto].
  Qed.

  (** *** Steps keep the plan *)

  Definition plan_kept (s s' : Service) : Prop :=
    sv_inputs s' = sv_inputs s /\ sv_cacheEnabled s' = sv_cacheEnabled s.
  Definition outputs_kept (s s' : Service) : Prop := plan_kept s s' /\ sv_outputs s' = sv_outputs s.

  Lemma run_steps_keep (K : Service -> Service -> Prop) l s w es r s' w' :
    (forall s, K s s) -> (forall a b c, K a b -> K b c -> K a c) ->
    Forall (fun ea => forall s w, K s (after_service (snd ea s w))) l ->
    run_steps l s w es r s' w' -> K s s'.
  Proof.
    intros Kr Kt F H. induction H.
    - apply Kr.
    - inversion F as [|? ? F1 F2]; subst. specialize (F1 s (noted e w)). cbn in F1. rewrite H in F1. cbn in F1.
      eapply Kt; [exact F1|]. auto.
    - inversion F as [|? ? F1 F2]; subst. specialize (F1 s (noted e w)). cbn in F1. rewrite H in F1. exact F1.
  Qed.

  Lemma run_steps_log l s w es r s' w' :
    Forall (fun ea => forall s w, w_log (after_world (snd ea s w)) = w_log w) l ->
    run_steps l s w es r s' w' -> w_log w' = (rev es ++ w_log w)%list.
  Proof.
    intros F H. induction H.
    - reflexivity.
    - inversion F as [|? ? F1 F2]; subst. specialize (F1 s (noted e w)). cbn in F1. rewrite H in F1. cbn in F1.
      rewrite IHrun_steps by auto. rewrite F1. cbn [rev]. rewrite <- app_assoc. reflexivity.
    - inversion F as [|? ? F1 F2]; subst. specialize (F1 s (noted e w)). cbn in F1. rewrite H in F1. exact F1.
  Qed.

  Lemma run_steps_events l s w es r s' w' :
    run_steps l s w es r s' w' -> (exists rest, map fst l = (es ++ rest)%list) /\ (r = Ok tt -> es = map fst l).
  Proof.
    intros H. induction H.
    - split; [exists []; reflexivity|auto].
    - destruct IHrun_steps as ((rest & E) & F). split.
      + exists rest. cbn. now rewrite E.
      + intros X. cbn. now rewrite (F X).
    - split; [exists (map fst l); reflexivity|congruence].
  Qed.

  Lemma caching_keeps s0 : Forall (fun ea => step_keeps keeps_outputs (snd ea)) (caching env s0).
  Proof. unfold caching. destruct (sv_cacheEnabled s0); constructor; [apply k_cache|constructor]. Qed.

  Lemma Forall_map' {A B} (P : B -> Prop) (f : A -> B) l : (forall a, P (f a)) -> Forall P (map f l).
  Proof. intros H. induction l; constructor; auto. Qed.

  Lemma setup_steps_keep s0 : Forall (fun ea => step_keeps keeps_outputs (snd ea)) (setup_steps env s0).
  Proof.
    unfold setup_steps. constructor; [apply k_dirs|]. apply Forall_app; split; [apply caching_keeps|].
    constructor; [apply k_nothing, keeps_outputs_refl|]. apply Forall_app; split; [|apply caching_keeps].
    apply Forall_map'. intros i. apply k_create.
  Qed.

  Definition analyse_steps (s : Service) : list (event * act unit) :=
    ((EvParse, aret tt) :: map (fun i => (EvParseInput (in_mode i), runParse env (in_parse i))) (sv_inputs s) ++ caching env s ++
     (EvClean, cleanTypes env) :: caching env s)%list.
  Lemma analyse_steps_keep s0 : Forall (fun ea => step_keeps keeps_outputs (snd ea)) (analyse_steps s0).
  Proof.
    unfold analyse_steps. constructor; [apply k_nothing, keeps_outputs_refl|].
    apply Forall_app; split; [apply Forall_map'; intros i; apply k_parse|].
    apply Forall_app; split; [apply caching_keeps|]. constructor; [apply k_clean|apply caching_keeps].
  Qed.

  Lemma weaken (R R' : Service -> World -> Service -> World -> Prop) (l : list (event * act unit)) :
    (forall s w s' w', R s w s' w' -> R' s w s' w') ->
    Forall (fun ea => step_keeps R (snd ea)) l -> Forall (fun ea => step_keeps R' (snd ea)) l.
  Proof. intros H. apply Forall_impl. intros a K s w. apply H, K. Qed.

  Lemma complete_steps_keep s0 : Forall (fun ea => step_keeps keeps_plan (snd ea)) (complete_steps env s0).
  Proof.
    assert (W : forall s w s' w', keeps_outputs s w s' w' -> keeps_plan s w s' w') by (intros ? ? ? ? H; apply H).
    assert (C := weaken _ _ _ W (caching_keeps s0)).
    unfold complete_steps. constructor; [apply k_nothing, keeps_plan_refl|].
    apply Forall_app; split; [apply Forall_map'; intros i s w; apply W, k_parse|].
    apply Forall_app; split; [auto|]. constructor; [intros s w; apply W, k_clean|].
    apply Forall_app; split; [auto|]. constructor; [apply k_nothing, keeps_plan_refl|].
    apply Forall_app; split; [apply Forall_map'; intros i s w; apply k_generate|].
    apply Forall_app; split; [auto|]. constructor; [intros s w; apply W, k_cleanup|constructor].
  Qed.

  (** *** The phases *)

  Lemma is_steps_keep (K : Service -> Service -> Prop) m l s w r s' w' :
    (forall s, K s s) -> (forall a b c, K a b -> K b c -> K a c) ->
    Forall (fun ea => forall s w, K s (after_service (snd ea s w))) l ->
    is_steps m l s w -> m s w = (r, s', w') -> K s s'.
  Proof.
    intros Kr Kt F (es & r2 & s2 & w2 & E & H) E2. rewrite E in E2. injection E2 as -> -> ->.
    eapply run_steps_keep; eauto.
  Qed.

  Lemma outputs_kept_refl s : outputs_kept s s.
  Proof. repeat split. Qed.
  Lemma outputs_kept_trans a b c : outputs_kept a b -> outputs_kept b c -> outputs_kept a c.
  Proof. unfold outputs_kept, plan_kept. intuition congruence. Qed.
  Lemma plan_kept_refl s : plan_kept s s.
  Proof. repeat split. Qed.
  Lemma plan_kept_trans a b c : plan_kept a b -> plan_kept b c -> plan_kept a c.
  Proof. unfold plan_kept. intuition congruence. Qed.

  Lemma keeps_outputs_kept l :
    Forall (fun ea : event * act unit => step_keeps keeps_outputs (snd ea)) l ->
    Forall (fun ea => forall s w, outputs_kept s (after_service (snd ea s w))) l.
  Proof. apply Forall_impl. intros a K s w. destruct (K s w) as ((_ & A & B) & D). repeat split; auto. Qed.

  Lemma keeps_plan_kept l :
    Forall (fun ea : event * act unit => step_keeps keeps_plan (snd ea)) l ->
    Forall (fun ea => forall s w, plan_kept s (after_service (snd ea s w))) l.
  Proof. apply Forall_impl. intros a K s w. destruct (K s w) as (_ & A & B). split; auto. Qed.

  Lemma keeps_plan_log l :
    Forall (fun ea : event * act unit => step_keeps keeps_plan (snd ea)) l ->
    Forall (fun ea => forall s w, w_log (after_world (snd ea s w)) = w_log w) l.
  Proof. apply Forall_impl. intros a K s w. apply (K s w). Qed.

  Ltac kept H :=
    eapply is_steps_keep in H; [exact H|apply outputs_kept_refl|apply outputs_kept_trans|apply keeps_outputs_kept|eauto].

  Lemma setup_is s0 s w :
    outputs_kept s0 s -> is_steps (Setup env) ((EvSetup, setupDirs env) :: caching env s0) s w.
  Proof.
    intros K. unfold Setup. eapply is_steps_ext; [apply abind_assoc|].
    apply (is_steps_bind _ _ [_]); [apply is_steps_log|]. intros s1 w1 E. apply is_steps_cache.
    assert (outputs_kept s s1) as (P & _).
    { eapply is_steps_keep; [apply outputs_kept_refl|apply outputs_kept_trans| |apply is_steps_log|exact E].
      apply keeps_outputs_kept. constructor; [apply k_dirs|constructor]. }
    destruct P as (_ & P), K as ((_ & K) & _). congruence.
  Qed.

  Lemma create_is s0 s w :
    outputs_kept s0 s ->
    is_steps (ServiceCreateRoutes env)
      ((EvCreate, aret tt) :: map (fun i => (EvCreateInput (in_mode i), runCreate env (in_create i))) (sv_inputs s0) ++ caching env s0)%list s w.
  Proof.
    intros K. unfold ServiceCreateRoutes.
    set (m := fun s w => (_ <-- runCreates env (sv_inputs s0) ;;; cacheIfEnabled env) s w).
    assert (M : forall w, is_steps m (map (fun i => (EvCreateInput (in_mode i), runCreate env (in_create i))) (sv_inputs s0) ++ caching env s0)%list s w).
    { intros w'. unfold m. apply is_steps_bind; [apply creates_steps|]. intros s1 w1 E. apply is_steps_cache.
      assert (outputs_kept s s1) as (P & _).
      { eapply is_steps_keep; [apply outputs_kept_refl|apply outputs_kept_trans| |apply creates_steps|exact E].
        apply keeps_outputs_kept. apply Forall_map'. intros i. apply k_create. }
      destruct P as (_ & P), K as ((_ & K) & _). congruence. }
    destruct (M (noted EvCreate w)) as (es & r & s' & w' & E & H).
    exists (EvCreate :: es), r, s', w'. split.
    - unfold abind at 1, log. unfold abind at 1, service. destruct K as ((KI & _) & _). rewrite KI. exact E.
    - eapply rs_ok; [reflexivity|exact H].
  Qed.

  Lemma parse_is s0 s w :
    outputs_kept s0 s ->
    is_steps (ParseRoutes env)
      ((EvParse, aret tt) :: map (fun i => (EvParseInput (in_mode i), runParse env (in_parse i))) (sv_inputs s0) ++ caching env s0)%list s w.
  Proof.
    intros K. unfold ParseRoutes.
    set (m := fun s w => (_ <-- runParses env (sv_inputs s0) ;;; cacheIfEnabled env) s w).
    assert (M : forall w, is_steps m (map (fun i => (EvParseInput (in_mode i), runParse env (in_parse i))) (sv_inputs s0) ++ caching env s0)%list s w).
    { intros w'. unfold m. apply is_steps_bind; [apply parses_steps|]. intros s1 w1 E. apply is_steps_cache.
      assert (outputs_kept s s1) as (P & _).
      { eapply is_steps_keep; [apply outputs_kept_refl|apply outputs_kept_trans| |apply parses_steps|exact E].
        apply keeps_outputs_kept. apply Forall_map'. intros i. apply k_parse. }
      destruct P as (_ & P), K as ((_ & K) & _). congruence. }
    destruct (M (noted EvParse w)) as (es & r & s' & w' & E & H).
    exists (EvParse :: es), r, s', w'. split.
    - unfold abind at 1, log. unfold abind at 1, service. destruct K as ((KI & _) & _). rewrite KI. exact E.
    - eapply rs_ok; [reflexivity|exact H].
  Qed.

  Lemma clean_is s0 s w :
    outputs_kept s0 s -> is_steps (Clean env) ((EvClean, cleanTypes env) :: caching env s0) s w.
  Proof.
    intros K. unfold Clean. eapply is_steps_ext; [apply abind_assoc|].
    apply (is_steps_bind _ _ [_]); [apply is_steps_log|]. intros s1 w1 E. apply is_steps_cache.
    assert (outputs_kept s s1) as (P & _).
    { eapply is_steps_keep; [apply outputs_kept_refl|apply outputs_kept_trans| |apply is_steps_log|exact E].
      apply keeps_outputs_kept. constructor; [apply k_clean|constructor]. }
    destruct P as (_ & P), K as ((_ & K) & _). congruence.
  Qed.

  Lemma generate_is s0 s w :
    outputs_kept s0 s ->
    is_steps (Generate env)
      ((EvGenerate, aret tt) :: map (fun no => (EvOutput (out_mode (snd no)), runGenerate env (fst no) (snd no))) (numbered 0 (sv_outputs s0)) ++ caching env s0)%list s w.
  Proof.
    intros K. unfold Generate.
    set (m := fun s w => (_ <-- runGenerates env 0 (sv_outputs s0) ;;; cacheIfEnabled env) s w).
    assert (M : forall w, is_steps m (map (fun no => (EvOutput (out_mode (snd no)), runGenerate env (fst no) (snd no))) (numbered 0 (sv_outputs s0)) ++ caching env s0)%list s w).
    { intros w'. unfold m. apply is_steps_bind; [apply generates_steps|]. intros s1 w1 E. apply is_steps_cache.
      assert (plan_kept s s1) as (_ & P).
      { eapply is_steps_keep; [apply plan_kept_refl|apply plan_kept_trans| |apply generates_steps|exact E].
        apply keeps_plan_kept. apply Forall_map'. intros i. apply k_generate. }
      destruct K as ((_ & K) & _). congruence. }
    destruct (M (noted EvGenerate w)) as (es & r & s' & w' & E & H).
    exists (EvGenerate :: es), r, s', w'. split.
    - unfold abind at 1, log. unfold abind at 1, service. destruct K as (_ & KO). rewrite KO. exact E.
    - eapply rs_ok; [reflexivity|exact H].
  Qed.

  (** *** The runs *)

  Lemma checkIO_ok s w : sv_inputs s <> [] -> sv_outputs s <> [] -> checkIO s w = (Ok tt, s, w).
  Proof.
    intros A B. unfold checkIO, abind, service. destruct (sv_inputs s); [congruence|]. destruct (sv_outputs s); [congruence|reflexivity].
  Qed.

  Lemma setupParse_is s w :
    sv_inputs s <> [] -> sv_outputs s <> [] -> is_steps (SetupParse env) (setup_steps env s) s w.
  Proof.
    intros A B. unfold SetupParse. eapply is_steps_ext with (m := _ <-- Setup env ;;; ServiceCreateRoutes env).
    - unfold abind at 2. now rewrite checkIO_ok.
    - unfold setup_steps. rewrite app_comm_cons. apply is_steps_bind; [apply setup_is, outputs_kept_refl|].
      intros s1 w1 E. apply create_is.
      eapply is_steps_keep; [apply outputs_kept_refl|apply outputs_kept_trans| |apply setup_is, outputs_kept_refl|exact E].
      apply keeps_outputs_kept. constructor; [apply k_dirs|apply caching_keeps].
  Qed.

  Lemma completeParse_is s0 s w :
    outputs_kept s0 s -> sv_inputs s0 <> [] -> sv_outputs s0 <> [] ->
    is_steps (CompleteParse env) (complete_steps env s0) s w.
  Proof.
    intros K A B. assert (KI := proj1 (proj1 K)). assert (KO := proj2 K).
    unfold CompleteParse.
    eapply is_steps_ext with (m := _ <-- ParseRoutes env ;;; _ <-- Clean env ;;; _ <-- Generate env ;;; Teardown env).
    - unfold abind at 4. rewrite checkIO_ok; congruence.
    - unfold complete_steps. rewrite app_comm_cons, app_assoc.
      apply is_steps_bind; [rewrite <- app_comm_cons; now apply parse_is|]. intros s1 w1 E1.
      assert (K1 : outputs_kept s0 s1).
      { eapply outputs_kept_trans; [exact K|].
        eapply is_steps_keep; [apply outputs_kept_refl|apply outputs_kept_trans| |apply (parse_is s0); exact K|exact E1].
        apply keeps_outputs_kept. constructor; [apply k_nothing, keeps_outputs_refl|].
        apply Forall_app; split; [apply Forall_map'; intros i; apply k_parse|apply caching_keeps]. }
      rewrite app_comm_cons. apply is_steps_bind; [now apply clean_is|]. intros s2 w2 E2.
      assert (K2 : outputs_kept s0 s2).
      { eapply outputs_kept_trans; [exact K1|].
        eapply is_steps_keep; [apply outputs_kept_refl|apply outputs_kept_trans| |apply (clean_is s0); exact K1|exact E2].
        apply keeps_outputs_kept. constructor; [apply k_clean|apply caching_keeps]. }
      rewrite app_comm_cons, app_assoc.
      apply is_steps_bind; [rewrite <- app_comm_cons; now apply generate_is|]. intros s3 w3 E3. apply is_steps_log.
  Qed.

  Lemma parse_run_is s w :
    sv_inputs s <> [] -> sv_outputs s <> [] ->
    is_steps (Parse env) (setup_steps env s ++ complete_steps env s) s w.
  Proof.
    intros A B. unfold Parse. apply is_steps_bind; [now apply setupParse_is|]. intros s1 w1 E.
    apply completeParse_is; auto.
    eapply is_steps_keep; [apply outputs_kept_refl|apply outputs_kept_trans| |apply setupParse_is; auto|exact E].
    apply keeps_outputs_kept, setup_steps_keep.
  Qed.

  Lemma numbered_snd {A} n (l : list A) : map snd (numbered n l) = l.
  Proof. revert n; induction l; intros; cbn; [reflexivity|]. now rewrite IHl. Qed.

  Lemma steps_events s :
    map fst (setup_steps env s ++ complete_steps env s)
    = expected_events (sv_cacheEnabled s) (map in_mode (sv_inputs s)) (map out_mode (sv_outputs s)).
  Proof.
    assert (C : map fst (caching env s) = if sv_cacheEnabled s then [EvCache] else []).
    { unfold caching. now destruct (sv_cacheEnabled s). }
    assert (G : map fst (map (fun no => (EvOutput (out_mode (snd no)), runGenerate env (fst no) (snd no))) (numbered 0 (sv_outputs s)))
                = map EvOutput (map out_mode (sv_outputs s))).
    { rewrite <- (numbered_snd 0 (sv_outputs s)) at 2. now rewrite !map_map. }
    unfold setup_steps, complete_steps, expected_events.
    repeat rewrite ?map_app, ?map_cons, ?G, ?C. cbn [fst map]. rewrite !map_map. cbn [fst app].
    repeat (rewrite <- ?app_assoc; cbn [app]). reflexivity.
  Qed.

  Lemma cleanUp_ok s w : result (cleanUp env s w) = Ok tt \/ result (cleanUp env s w) = Panic \/ result (cleanUp env s w) = OutOfFuel.
  Proof.
    unfold result, cleanUp, abind, service, ignore.
    match goal with |- context [match ?x with _ => _ end] => destruct x as [[[[]|e| |] s'] w'] end; cbn; auto.
  Qed.
End Order.
