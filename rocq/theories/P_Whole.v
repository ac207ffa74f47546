(** A run from the routers to the document. *)
From Coq Require Import List String Ascii Bool ZArith Arith Lia.
From Verif Require Import BaseStr BaseMap M_Types M_Collect M_Paths M_OpenAPI M_Parse M_Clean M_FS M_Service S_Collect S_OpenAPI S_Parse S_Paths S_Service S_Cache S_Files S_Custom S_Whole.
From Verif Require Import P_Collect P_FS P_Path P_Parse3 P_Act P_Order P_Frame P_Azure P_Cli P_Temp P_Same.
Import ListNotations.
Local Open Scope string_scope.

Lemma steps_split l1 l2 s w es s' w' :
  run_steps (l1 ++ l2) s w es (Ok tt) s' w' ->
  exists es1 es2 s1 w1, run_steps l1 s w es1 (Ok tt) s1 w1 /\ run_steps l2 s1 w1 es2 (Ok tt) s' w'.
Proof.
  revert s w es. induction l1 as [|(e, a) l IH]; intros s w es H; cbn [app] in H.
  - exists [], es, s, w. split; [constructor|exact H].
  - inversion H as [|? ? ? ? ? s1 w1 es1 ? ? ? E1 H1|]; subst; [|congruence].
    apply IH in H1 as (es2 & es3 & s2 & w2 & H1 & H2). exists (e :: es2), es3, s2, w2. split; [eapply rs_ok; eauto|exact H2].
Qed.
Lemma steps_first e a l s w es s' w' :
  run_steps ((e, a) :: l) s w es (Ok tt) s' w' ->
  exists es1 s1 w1, a s (noted e w) = (Ok tt, s1, w1) /\ run_steps l s1 w1 es1 (Ok tt) s' w'.
Proof. intros H. inversion H as [|? ? ? ? ? s1 w1 es1 ? ? ? E1 H1|]; subst; [eauto|congruence]. Qed.
Lemma numbered_app {A} (l1 l2 : list A) n : numbered n (l1 ++ l2) = (numbered n l1 ++ numbered (n + List.length l1) l2)%list.
Proof.
  revert n. induction l1 as [|a l IH]; intros n; cbn; [now rewrite Nat.add_0_r|]. now rewrite IH, Nat.add_succ_r.
Qed.

(** What most steps leave as it is. *)
Definition results_kept (s : Service) (w : World) (s' : Service) (w' : World) : Prop :=
  sv_routes s' = sv_routes s /\ sv_components s' = sv_components s /\ sv_denyList s' = sv_denyList s /\
  sv_customFuncs s' = sv_customFuncs s /\ w_cwd w' = w_cwd w.
(** What all steps leave as it is. *)
Definition rules_kept (s : Service) (w : World) (s' : Service) (w' : World) : Prop :=
  sv_denyList s' = sv_denyList s /\ sv_customFuncs s' = sv_customFuncs s /\ w_cwd w' = w_cwd w.
Ltac rk := unfold results_kept, rules_kept in *; intros; cbn in *; intuition congruence.

(** What a document depends on, apart from the results: only an OpenAPI output changes it. *)
Definition settings_kept (s : Service) (w : World) (s' : Service) (w' : World) : Prop :=
  sv_customTypes s' = sv_customTypes s /\ sv_memo s' = sv_memo s /\ w_names w' = w_names w.
Ltac sk := unfold settings_kept in *; intros; cbn in *; intuition congruence.
Definition no_document (o : Output) : Prop := forall x, out_generate o <> GeOpenAPI x.
Lemma generate_settings env n o s w : no_document o -> preserves settings_kept (runGenerate env n o) s w.
Proof.
  intros N. unfold runGenerate. destruct (out_generate o) as [|x|x|x|a] eqn:E; [| | | |].
  - apply preserves_outcome; sk.
  - now elim (N x).
  - unfold generateJSON. apply preserves_service. apply preserves_bind; [sk|unfold preserves, capture, modify, after_service, after_world; sk|].
    intros; apply p_writefile; sk.
  - apply p_generateAzure; sk.
  - apply preserves_outcome; sk.
Qed.

Section Stages.
  Context (env : Env).

  Lemma caching_results s : Forall (fun ea => forall s w, preserves results_kept (snd ea) s w) (caching env s).
  Proof. unfold caching. destruct (sv_cacheEnabled s); constructor; [|constructor]. intros s1 w1. apply p_cache; rk. Qed.
  Lemma steps_results l s w es r s' w' :
    Forall (fun ea => forall s w, preserves results_kept (snd ea) s w) l -> run_steps l s w es r s' w' -> results_kept s w s' w'.
  Proof. intros F H. refine (run_steps_preserve results_kept _ _ _ _ _ _ _ _ _ _ F H); rk. Qed.

  (** Creating. *)
  Lemma gin_create infos : forall s w s' w',
    ginCreateRoutes env infos s w = (Ok tt, s', w') ->
    exists rs, created (e_rel env ("/" ++ join "/" (w_cwd w))) (sv_denyList s) infos rs /\
      sv_routes s' = (sv_routes s ++ rs)%list /\ sv_components s' = sv_components s /\ rules_kept s w s' w'.
  Proof.
    induction infos as [|i infos IH]; intros s w s' w' E; cbn [ginCreateRoutes] in E.
    - injection E as <- <-. exists []. split; [constructor|]. rewrite app_nil_r. split; auto. split; auto. rk.
    - unfold abind at 1, service in E. destruct (denied (sv_denyList s) (gi_path i)) eqn:D.
      + apply IH in E as (rs & C & R & K). exists rs. split; [|auto]. apply cr_deny; auto.
        rewrite <- denied_spec. congruence.
      + apply bind_ok in E as (d & s1 & w1 & E1 & E). apply bind_ok in E as (l & s2 & w2 & E2 & E).
        apply bind_ok in E as ([] & s3 & w3 & E3 & E).
        unfold os_Getwd in E1. destruct (e_fault env (w_clock w)); [discriminate E1|]. injection E1 as <- <- <-.
        unfold aoutcome in E2. injection E2 as E2 <- <-. unfold modify in E3. injection E3 as <- <-.
        unfold createRoute in E2. change (String "/" (join "/" (w_cwd w))) with ("/" ++ join "/" (w_cwd w)) in E2. destruct (e_rel env ("/" ++ join "/" (w_cwd w)) (gi_file i)) as [p|] eqn:RE; [|discriminate].
        injection E2 as <-. apply IH in E as (rs & C & R & K1 & K2). cbn [sv_denyList sv_routes sv_components with_results w_cwd tick] in *.
        exists (newRoute i p :: rs). split; [apply cr_allow; auto; now apply denied_spec|].
        split; [rewrite R; unfold AddRoute; now rewrite <- app_assoc|]. split; auto.
  Qed.
  Lemma created_app rel deny l1 l2 r1 r2 : created rel deny l1 r1 -> created rel deny l2 r2 -> created rel deny (l1 ++ l2) (r1 ++ r2).
  Proof. induction 1; intros H2; cbn; auto; [apply cr_allow|apply cr_deny]; auto. Qed.
  Lemma create_stage inputs : forall s w es s' w',
    run_steps (map (fun i => (EvCreateInput (in_mode i), runCreate env (in_create i))) inputs) s w es (Ok tt) s' w' ->
    exists rs, created (e_rel env ("/" ++ join "/" (w_cwd w))) (sv_denyList s) (flat_map router_of inputs) rs /\
      sv_routes s' = (sv_routes s ++ rs)%list /\ sv_components s' = sv_components s /\ rules_kept s w s' w'.
  Proof.
    induction inputs as [|i inputs IH]; intros s w es s' w' H; cbn [map flat_map] in *.
    - inversion H; subst. exists []. split; [constructor|]. rewrite app_nil_r. split; auto. split; auto. rk.
    - apply steps_first in H as (es1 & s1 & w1 & E & H).
      assert (X : exists rs, created (e_rel env ("/" ++ join "/" (w_cwd w))) (sv_denyList s) (router_of i) rs /\
                  sv_routes s1 = (sv_routes s ++ rs)%list /\ sv_components s1 = sv_components s /\ rules_kept s w s1 w1).
      { unfold router_of. destruct (in_create i) as [|[l|]|a]; cbn [runCreate] in E; try discriminate.
        - apply gin_create in E as (rs & C & R & K1 & K2). exists rs. split; auto.
        - unfold aoutcome in E. injection E as _ <- <-. exists []. split; [constructor|]. rewrite app_nil_r. split; auto. split; auto. rk. }
      destruct X as (r1 & C1 & R1 & K1 & M1). apply IH in H as (r2 & C2 & R2 & K2 & M2).
      assert (Y : sv_denyList s1 = sv_denyList s /\ w_cwd w1 = w_cwd w) by rk. destruct Y as (Y1 & Y2). rewrite Y1, Y2 in C2.
      exists (r1 ++ r2)%list. split; [now apply created_app|]. split; [now rewrite R2, R1, app_assoc|]. split; [congruence|rk].
  Qed.

  (** Analysing. *)
  Lemma parse_gin s w s' w' :
    runParse env PaGin s w = (Ok tt, s', w') ->
    e_analyse env (sv_customFuncs s) (sv_tempMain s') (sv_routes s) (sv_components s) = Ok (sv_routes s', sv_components s', None) /\ rules_kept s w s' w'.
  Proof.
    intros E. cbn [runParse] in E. unfold abind at 1, service in E. apply bind_ok in E as ([] & s1 & w1 & E1 & E).
    assert (K : results_kept s w s1 w1).
    { destruct (e_usesMain env (sv_customFuncs s) (sv_routes s)).
      - apply bind_ok in E1 as (m & s2 & w2 & E1 & E2). unfold aret in E2. injection E2 as <- <-.
        assert (P : preserves results_kept (GetMainPackageName env) s w) by (apply p_getMain; rk).
        unfold preserves, after_service, after_world in P. now rewrite E1 in P.
      - unfold aret in E1. injection E1 as <- <-. rk. }
    unfold abind at 1, service in E. apply bind_ok in E as (((r & c) & e) & s2 & w2 & E2 & E).
    unfold aoutcome in E2. injection E2 as E2 <- <-. unfold abind, modify, aoutcome in E. cbn [fst snd] in E.
    destruct e; [discriminate|]. injection E as <- <-. cbn [sv_tempMain with_results].
    assert (X : sv_customFuncs s1 = sv_customFuncs s /\ sv_routes s1 = sv_routes s /\ sv_components s1 = sv_components s) by rk.
    destruct X as (X1 & X2 & X3). rewrite X1, X2, X3 in E2. split; [exact E2|rk].
  Qed.
End Stages.

Definition key (r : Route) := (rt_path r, rt_method r).
Lemma same_keys l l' : Forall2 same_identity l l' -> map key l' = map key l.
Proof. induction 1 as [|r r' l l' (A & B & C & D & E) F IH]; auto. cbn. unfold key at 1 3. now rewrite D, E, IH. Qed.
Lemma same_trans r1 r2 r3 : same_identity r1 r2 -> same_identity r2 r3 -> same_identity r1 r3.
Proof. unfold same_identity. intuition congruence. Qed.

Lemma analysed_all env cs fuel prog main routes comps routes' comps' :
  analyses_with env cs fuel prog -> Forall polite cs -> NoDup (map key routes) ->
  e_analyse env cs main routes comps = Ok (routes', comps', None) ->
  Forall2 (fun r r' => same_identity r r' /\ exists c c', parseRoute fuel (prog main) r c = Ok (r', c')) routes routes'.
Proof.
  intros A HP ND E. destruct (A main) as (HC & HA). rewrite HA in E.
  destruct (parse_from_same cs HP fuel (prog main) HC routes [] comps routes' comps' None ND E) as (out & rest & -> & (bef & -> & F) & H1 & H2).
  rewrite (H1 eq_refl), !app_nil_r. cbn [app]. clear - F HC HP. induction F as [|r r' l l' (c & c' & E) _ IH]; constructor; auto. split; eauto.
  now apply (parseRoute_same cs HP) in E as [Hi _].
Qed.

Lemma parse_stage env cs fuel prog inputs : analyses_with env cs fuel prog -> Forall polite cs -> forall s w es s' w',
  run_steps (map (fun i => (EvParseInput (in_mode i), runParse env (in_parse i))) inputs) s w es (Ok tt) s' w' ->
  sv_customFuncs s = cs -> NoDup (map key (sv_routes s)) ->
  Forall2 same_identity (sv_routes s) (sv_routes s') /\ rules_kept s w s' w'.
Proof.
  intros A HP. induction inputs as [|i inputs IH]; intros s w es s' w' H CF ND; cbn [map] in H.
  - inversion H; subst. split; [|rk]. clear. induction (sv_routes s'); constructor; auto. repeat split.
  - apply steps_first in H as (es1 & s1 & w1 & E & H).
    assert (X : Forall2 same_identity (sv_routes s) (sv_routes s1) /\ rules_kept s w s1 w1).
    { destruct (in_parse i) as [| |a]; cbn [runParse] in E; try discriminate.
      - apply (parse_gin env s _ s1 w1) in E as (E & K). rewrite CF in E. split; [|rk].
        apply (analysed_all env cs fuel prog) in E; auto. clear - E. induction E as [|? ? ? ? (X & _)]; constructor; auto.
      - unfold aoutcome in E. injection E as _ <- <-. split; [|rk]. clear. induction (sv_routes s); constructor; auto. repeat split. }
    destruct X as (X & K). apply IH in H as (Y & K2); [| |]; [|rk|now rewrite (same_keys _ _ X)].
    split; [|rk]. clear - X Y. revert Y. generalize (sv_routes s'). induction X as [|r r' l l' R X IH]; intros l2 Y; inversion Y; subst; constructor; auto.
    eapply same_trans; eauto.
Qed.

(** A route analysed [n] times, each time with the program of no main package yet or of [main]. *)
Inductive rounds (fuel : nat) (prog : string -> program) (main : string) : nat -> Route -> Route -> Prop :=
| rounds_none r : rounds fuel prog main 0 r r
| rounds_more n m r c r1 c1 r2 : m = "" \/ m = main -> parseRoute fuel (prog m) r c = Ok (r1, c1) ->
    rounds fuel prog main n r1 r2 -> rounds fuel prog main (S n) r r2.
Lemma rounds_main fuel prog n r r' main main' : rounds fuel prog main n r r' -> main = "" \/ main = main' -> rounds fuel prog main' n r r'.
Proof.
  induction 1 as [r|n m r c r1 c1 r2 M P R IH]; intros D; [constructor|].
  apply (rounds_more fuel prog main' n m r c r1 c1 r2); auto. destruct M as [->| ->]; auto.
Qed.

Lemma getMain_keeps env s w m s' w' : GetMainPackageName env s w = (Ok m, s', w') -> sv_tempMain s = "" \/ sv_tempMain s = sv_tempMain s'.
Proof.
  unfold GetMainPackageName. intros E. unfold abind at 1, service in E. apply bind_ok in E as ([] & s1 & w1 & E1 & E).
  unfold abind, service, aret in E. injection E as <- <- <-.
  destruct (String.eqb (sv_tempMain s) "") eqn:D; [left; now apply String.eqb_eq|].
  unfold aret in E1. injection E1 as <- <-. auto.
Qed.
Lemma parse_keeps env f s w s' w' : runParse env f s w = (Ok tt, s', w') -> sv_tempMain s = "" \/ sv_tempMain s = sv_tempMain s'.
Proof.
  destruct f as [| |a]; cbn [runParse]; intros E.
  - discriminate E.
  - unfold abind at 1, service in E. apply bind_ok in E as ([] & s1 & w1 & E1 & E).
    assert (X : sv_tempMain s = "" \/ sv_tempMain s = sv_tempMain s1).
    { destruct (e_usesMain _ _ _).
      - apply bind_ok in E1 as (m & s2 & w2 & E1 & E2). injection E2 as <- <-. now apply getMain_keeps in E1.
      - injection E1 as <- <-. auto. }
    unfold abind at 1, service in E. apply bind_ok in E as (x & s2 & w2 & E2 & E). injection E2 as E2 <- <-.
    apply bind_ok in E as ([] & s3 & w3 & E3 & E). unfold modify in E3. injection E3 as <- <-. injection E as E <- <-. exact X.
  - injection E as _ <- <-. auto.
Qed.

Lemma parse_rounds env cs fuel prog inputs : analyses_with env cs fuel prog -> Forall polite cs -> forall s w es s' w',
  run_steps (map (fun i => (EvParseInput (in_mode i), runParse env (in_parse i))) inputs) s w es (Ok tt) s' w' ->
  sv_customFuncs s = cs -> NoDup (map key (sv_routes s)) ->
  (sv_tempMain s = "" \/ sv_tempMain s = sv_tempMain s') /\
  Forall2 (rounds fuel prog (sv_tempMain s') (List.length (filter gin_input inputs))) (sv_routes s) (sv_routes s').
Proof.
  intros A HP. induction inputs as [|i inputs IH]; intros s w es s' w' H CF ND; cbn [map] in H.
  - inversion H; subst. split; auto. clear. induction (sv_routes s'); constructor; auto. constructor.
  - apply steps_first in H as (es1 & s1 & w1 & E & H).
    assert (MK := parse_keeps _ _ _ _ _ _ E).
    cbn [filter]. unfold gin_input at 1. destruct (in_parse i) as [| |a]; cbn [runParse] in E; try discriminate.
    + apply (parse_gin env s _ s1 w1) in E as (E & K). rewrite CF in E.
      apply (analysed_all env cs fuel prog) in E; auto.
      assert (X : Forall2 same_identity (sv_routes s) (sv_routes s1)) by (clear - E; induction E as [|? ? ? ? (X & _)]; constructor; auto).
      apply IH in H as (M1 & Y); [|rk|now rewrite (same_keys _ _ X)].
      split; [intuition congruence|]. cbn [List.length]. clear - E Y M1. revert Y. generalize (sv_routes s').
      induction E as [|r r' l l' (_ & c & c' & P) E IH]; intros l2 Y; inversion Y; subst; constructor; auto.
      econstructor; eauto.
    + unfold aoutcome in E. injection E as _ <- <-. apply IH in H as (M1 & Y); auto.
Qed.

(** The routes created are those offered. *)
Lemma created_in rel deny infos rs r : created rel deny infos rs -> In r rs ->
  exists i p, In i infos /\ allowed deny i /\ rel (gi_file i) = Some p /\
    r = mkRoute (gi_handler i) p (gi_line i) (gi_method i) (gi_path i) [] [] [] [] "" "" [] [].
Proof.
  induction 1 as [|i is rs p A R C IH|i is rs A C IH]; intros I; [destruct I| |].
  - destruct I as [<-|I]; [exists i, p; cbn; auto|]. apply IH in I as (j & q & I & X). exists j, q. cbn. auto.
  - apply IH in I as (j & q & I & X). exists j, q. cbn. auto.
Qed.
Lemma created_has rel deny infos rs i : created rel deny infos rs -> In i infos -> allowed deny i ->
  exists p, rel (gi_file i) = Some p /\ In (mkRoute (gi_handler i) p (gi_line i) (gi_method i) (gi_path i) [] [] [] [] "" "" [] []) rs.
Proof.
  induction 1 as [|j is rs p A R C IH|j is rs A C IH]; intros I AL; [destruct I| |].
  - destruct I as [->|I]; [exists p; cbn; auto|]. destruct (IH I AL) as (q & X & Y). exists q. cbn. auto.
  - destruct I as [->|I]; [contradiction|]. auto.
Qed.
Lemma created_once rel deny infos rs :
  created rel deny infos rs -> NoDup (map (fun i => (gi_method i, gi_path i)) infos) -> NoDup (map key rs).
Proof.
  induction 1 as [|i is rs p A R C IH|i is rs A C IH]; intros ND; cbn in *; [constructor| |]; inversion ND as [|? ? NI ND']; subst; auto.
  constructor; auto. intros I. apply NI. apply in_map_iff in I as (r & E & I).
  destruct (created_in _ _ _ _ _ C I) as (j & q & J & _ & _ & ->). unfold key in E. cbn in E. injection E as E1 E2.
  apply in_map_iff. exists j. split; auto. congruence.
Qed.

(** Generating. *)
Lemma generate_document env n o x s w s' w' :
  out_generate o = GeOpenAPI x -> sv_workDir s <> "" -> runGenerate env n o s w = (Ok tt, s', w') ->
  exists d names custom, custom = (match sv_memo s with Some c => c | None => sv_customTypes s end) /\
    generated (e_orders env) custom (sv_config s) (sv_routes s) (sv_components s) (w_names w) d names /\
    kind_at (place (work_dir s w) (with_extension [".json"; ".yaml"; ".yml"] x)) (w_fs w')
      = Some (KFile (CDocument (is_yaml (openapiPath x)) d)).
Proof.
  intros G W E. unfold runGenerate in E. rewrite G in E. unfold generateOpenAPI in E. unfold abind at 1, service in E.
  apply bind_ok in E as (((d & c) & names) & s1 & w1 & E1 & E). injection E1 as E1 <- <-. cbn [fst snd] in E.
  unfold abind at 1 in E. apply bind_ok in E as ([] & s2 & w2 & E2 & E). unfold capture, modify in E2. injection E2 as <- <-.
  apply writefile_ok in E as (_ & _ & _ & K). cbn [w_cwd w_set_names] in K.
  match type of E1 with buildDocument _ ?cu _ _ _ _ = _ => exists d, names, cu end. split; [reflexivity|]. split; [exists c; exact E1|].
  rewrite place_under, <- openapiPath_spec. unfold work_dir. rewrite <- locate_join by auto. rewrite K, !is_prefix_refl. reflexivity.
Qed.

Lemma generate_results env n o x s w s' w' :
  out_generate o = GeJSON x -> sv_workDir s <> "" -> runGenerate env n o s w = (Ok tt, s', w') ->
  kind_at (place (work_dir s w) (with_extension [".json"] x)) (w_fs w') = Some (KFile (CResults (sv_routes s) (sv_components s))).
Proof.
  intros G W E. unfold runGenerate in E. rewrite G in E. unfold generateJSON in E. unfold abind at 1, service in E.
  unfold abind at 1 in E. unfold capture, modify in E.
  apply writefile_ok in E as (_ & _ & _ & K).
  rewrite place_under, <- jsonPath_spec. unfold work_dir. rewrite <- locate_join by auto. rewrite K, !is_prefix_refl. reflexivity.
Qed.

Lemma results_later env l : Forall (fun ea => forall s w, preserves results_kept (snd ea) s w) (map (fun no => (EvOutput (out_mode (snd no)), runGenerate env (fst no) (snd no))) l).
Proof. apply Forall_map_in. intros no _ s w. cbn [snd fst]. apply p_runGenerate; rk. Qed.

Section Whole.
  Context (env : Env) (s : Service) (w : World) (sane0 : sane w).
  Context (here : kind_at (work_dir s w) (w_fs w) = Some KDir).
  Let T := run_place s w.
  Let K := fun q => kind_at q (w_fs w).
  Notation okl := (fun ea : M_Service.event * act unit => forall s1 w1, preserves (moments (w_cwd w) (has_dir s w) (unchanged T K)) (snd ea) s1 w1).

  (** The state anywhere after the set-up. *)
  Lemma prefix_frame l s1 w1 es : Forall okl l -> run_steps ((EvSetup, setupDirs env) :: l) s w es (Ok tt) s1 w1 ->
    w_cwd w1 = w_cwd w /\ has_dir s w s1 /\ sane w1.
  Proof.
    intros F H. apply steps_first in H as (es1 & s2 & w2 & E & H).
    assert (U0 : unchanged T K (w_fs w)) by (destruct sane0; split; auto).
    assert (R := run_setup env s w sane0 s (noted EvSetup w) eq_refl eq_refl eq_refl here).
    unfold preserves, after_service, after_world in R. rewrite E in R. cbn [fst snd] in R.
    destruct (R eq_refl) as (C1 & S1 & U1 & _); [repeat split; reflexivity|exact U0|].
    assert (R2 := run_steps_moments (w_cwd w) (has_dir s w) (unchanged T K) _ _ _ _ _ _ _ F H).
    destruct (R2 C1) as (C2 & S2 & (U2 & _) & _); [split; [exact S1|eapply setup_has_dir; eauto]|exact U1|].
    split; auto. split; auto. split; [rewrite C2; exact (proj1 sane0)|exact U2].
  Qed.

  (** Nothing after the output touches its place. *)
  Lemma suffix_frame post q n s1 w1 es s' w' :
    left_alone s w post q -> w_cwd w1 = w_cwd w -> has_dir s w s1 -> sane w1 ->
    run_steps (map (fun no => (EvOutput (out_mode (snd no)), runGenerate env (fst no) (snd no))) (numbered n post) ++ caching env s ++
               [(EvTeardown, cleanUp env)]) s1 w1 es (Ok tt) s' w' ->
    kind_at q (w_fs w') = kind_at q (w_fs w1).
  Proof.
    intros (L1 & L2 & L3) C D (CP & PT) H. rewrite C in CP.
    set (T' := fun q' => q' <> q). set (K' := fun q' => kind_at q' (w_fs w1)).
    assert (AB : forall p, ~ inside p q -> all_below T' p) by (intros p N r X; apply N; exists r; auto).
    assert (AA : forall r, all_below T' ((work_dir s w ++ [".astra"]) ++ r)).
    { intros r. apply AB. intros (r' & E). apply L2. exists (r ++ r')%list. now rewrite E, <- app_assoc. }
    assert (B := hd_base s w).
    assert (F : Forall (fun ea : M_Service.event * act unit => forall s1 w1, preserves (moments (w_cwd w) (has_dir s w) (unchanged T' K')) (snd ea) s1 w1)
                (map (fun no => (EvOutput (out_mode (snd no)), runGenerate env (fst no) (snd no))) (numbered n post) ++ caching env s ++
               [(EvTeardown, cleanUp env)])).
    { apply Forall_app. split; [|apply Forall_app; split].
      - apply Forall_map_in. intros no I s2 w2. cbn [snd]. apply numbered_in in I.
        apply (f_runGenerate _ _ _ _ CP env (work_dir s w) B); auto.
        + intros (_ & W). exact W.
        + intros A. specialize (AA ["azure"]). rewrite <- app_assoc in AA. exact AA.
        + intros q' Q ->. now apply (L1 _ I).
      - apply f_cacheIfEnabled_steps; auto. intros CE s2 (S2 & _). apply AB. rewrite (cache_same s w s2 S2). auto.
      - constructor; [|constructor]. intros s2 w2. cbn [snd]. apply (f_cleanUp _ _ _ _ env (work_dir s w)); auto.
        specialize (AA ["astramain"]). rewrite <- app_assoc in AA. exact AA.
      }
    assert (R := run_steps_moments _ _ _ _ _ _ _ _ _ _ F H).
    destruct (R C D) as (_ & _ & (_ & U) & _); [split; auto|]. apply U. intros X. now apply X.
  Qed.

  (** The state before an output, and what comes of the place where it writes. *)
  Lemma run_until fuel prog pre o post q s' w' :
    started s -> analyses_with env (sv_customFuncs s) fuel prog -> Forall polite (sv_customFuncs s) -> served_once s ->
    sv_outputs s = (pre ++ o :: post)%list -> left_alone s w post q ->
    Parse env s w = (Ok tt, s', w') ->
    exists rs routes main comps s6 w6 s7 w7,
      created (e_rel env ("/" ++ join "/" (w_cwd w))) (sv_denyList s) (served s) rs /\
      Forall2 same_identity rs routes /\
      (forall i, sv_inputs s = [i] -> in_parse i = PaGin -> exists main0, (main0 = "" \/ main0 = main) /\
         e_analyse env (sv_customFuncs s) main0 rs [] = Ok (routes, comps, None) /\
         Forall2 (fun r r' => exists c c', parseRoute fuel (prog main0) r c = Ok (r', c')) rs routes) /\
      Forall2 (rounds fuel prog main (times s)) rs routes /\
      temp_main main /\ sv_tempMain s' = main /\
      sv_routes s6 = cleanRoutes main routes /\ sv_components s6 = cleanComponents main comps /\
      sv_workDir s6 <> "" /\ work_dir s6 w6 = work_dir s w /\
      runGenerate env (List.length pre) o s6 w6 = (Ok tt, s7, w7) /\
      kind_at q (w_fs w') = kind_at q (w_fs w7) /\
      (Forall no_document pre -> settings_kept s w s6 w6).
  Proof.
    intros (FR & FC & FM) A HP ON EO LA E.
    assert (Z : sv_inputs s <> [] /\ sv_outputs s <> []).
    { unfold Parse in E. apply bind_ok in E as ([] & s1 & w1 & E & _). eapply setup_inputs; eauto. }
    destruct Z as (Z1 & Z2). destruct (parse_run_is env s w Z1 Z2) as (es & r2 & s2 & w2 & E2 & H).
    rewrite E in E2. injection E2 as <- <- <-.
    assert (LO := later_ok env s w sane0).
    unfold setup_steps, complete_steps in H, LO. cbn [tl] in LO. rewrite EO, numbered_app in H, LO. cbn [numbered Nat.add] in H, LO.
    rewrite map_app in H, LO. cbn [map fst snd] in H, LO.
    set (ca := caching env s) in *.
    set (cr := map (fun i => (EvCreateInput (in_mode i), runCreate env (in_create i))) (sv_inputs s)) in *.
    set (pa := map (fun i => (EvParseInput (in_mode i), runParse env (in_parse i))) (sv_inputs s)) in *.
    set (g1 := map (fun no => (EvOutput (out_mode (snd no)), runGenerate env (fst no) (snd no))) (numbered 0 pre)) in *.
    set (g2 := map (fun no => (EvOutput (out_mode (snd no)), runGenerate env (fst no) (snd no))) (numbered (S (List.length pre)) post)) in *.
    set (st := (EvSetup, setupDirs env)) in *.
    match type of H with run_steps ?l _ _ _ _ _ _ =>
      replace l with ((st :: ca ++ [(EvCreate, aret tt)]) ++ cr ++ (ca ++ [(EvParse, aret tt)]) ++ pa ++ ca ++ (EvClean, cleanTypes env) ::
                      (ca ++ [(EvGenerate, aret tt)] ++ g1) ++ (EvOutput (out_mode o), runGenerate env (List.length pre) o) ::
                      (g2 ++ ca ++ [(EvTeardown, cleanUp env)]))%list in H
        by (repeat (rewrite <- ?app_assoc; cbn [app]); reflexivity) end.
    assert (CA := caching_results env s). fold ca in CA.
    assert (RN : forall e : M_Service.event, Forall (fun ea => forall s w, preserves results_kept (snd ea) s w) [(e, aret tt)]).
    { intros e. constructor; [|constructor]. intros s1 w1. unfold preserves. cbn. rk. }
    (* the state before the output *)
    assert (PF : exists s6 w6 es6 es7, w_cwd w6 = w_cwd w /\ has_dir s w s6 /\ sane w6 /\
      run_steps ((st :: ca ++ [(EvCreate, aret tt)]) ++ cr ++ (ca ++ [(EvParse, aret tt)]) ++ pa ++ ca ++ (EvClean, cleanTypes env) ::
                      (ca ++ [(EvGenerate, aret tt)] ++ g1)) s w es6 (Ok tt) s6 w6 /\
      run_steps ((EvOutput (out_mode o), runGenerate env (List.length pre) o) ::
                      (g2 ++ ca ++ [(EvTeardown, cleanUp env)])) s6 w6 es7 (Ok tt) s' w').
    { match type of H with run_steps ?l _ _ _ _ _ _ =>
        replace l with (((st :: ca ++ [(EvCreate, aret tt)]) ++ cr ++ (ca ++ [(EvParse, aret tt)]) ++ pa ++ ca ++ (EvClean, cleanTypes env) ::
                      (ca ++ [(EvGenerate, aret tt)] ++ g1)) ++ ((EvOutput (out_mode o), runGenerate env (List.length pre) o) ::
                      (g2 ++ ca ++ [(EvTeardown, cleanUp env)])))%list in H
          by (repeat (rewrite <- ?app_assoc; cbn [app]); reflexivity) end.
      apply steps_split in H as (es6 & es7 & s6 & w6 & H1 & H2). exists s6, w6, es6, es7.
      assert (X := H1). cbn [app] in X. apply prefix_frame in X.
      - intuition.
      - match type of LO with Forall _ ?l =>
          replace l with (((ca ++ [(EvCreate, aret tt)]) ++ cr ++ (ca ++ [(EvParse, aret tt)]) ++ pa ++ ca ++ (EvClean, cleanTypes env) ::
                      (ca ++ [(EvGenerate, aret tt)] ++ g1)) ++ ((EvOutput (out_mode o), runGenerate env (List.length pre) o) ::
                      (g2 ++ ca ++ [(EvTeardown, cleanUp env)])))%list in LO
            by (repeat (rewrite <- ?app_assoc; cbn [app]); reflexivity) end.
        apply Forall_app in LO as (LO & _). exact LO. }
    destruct PF as (s6 & w6 & es6 & es7 & C6 & D6 & SA6 & H6 & H7). clear H LO.
    assert (SK : Forall no_document pre -> settings_kept s w s6 w6).
    { intros ND. refine (run_steps_preserve settings_kept _ _ _ _ _ _ _ _ _ _ _ H6); try sk.
      assert (SC : Forall (fun ea => forall s w, preserves settings_kept (snd ea) s w) ca).
      { unfold ca, caching. destruct (sv_cacheEnabled s); constructor; [|constructor]. intros s1 w1. apply p_cache; sk. }
      assert (SN : forall e : M_Service.event, Forall (fun ea => forall s w, preserves settings_kept (snd ea) s w) [(e, aret tt)]).
      { intros e. constructor; [|constructor]. intros s1 w1. unfold preserves. cbn. sk. }
      repeat first [apply SC|apply SN|apply Forall_app; split|apply Forall_cons].
      - intros s1 w1. apply p_setupDirs; sk.
      - apply Forall_map_in. intros i _ s1 w1. apply p_runCreate; sk.
      - apply Forall_map_in. intros i _ s1 w1. apply p_runParse; sk.
      - intros s1 w1. apply p_cleanTypes; sk.
      - apply Forall_map_in. intros no I s1 w1. cbn [snd fst]. apply generate_settings.
        rewrite Forall_forall in ND. apply ND. now apply numbered_in in I. }
    apply steps_split in H6 as (? & ? & s1 & w1 & H1 & H6). apply steps_split in H6 as (? & ? & s2 & w2 & H2 & H6).
    apply steps_split in H6 as (? & ? & s3 & w3 & H3 & H6). apply steps_split in H6 as (? & ? & s4 & w4 & H4 & H6).
    apply steps_split in H6 as (? & ? & s4' & w4' & H4' & H6). apply steps_first in H6 as (? & s5 & w5 & H5 & H6).
    assert (K1 : results_kept s w s1 w1).
    { refine (steps_results _ _ _ _ _ _ _ _ H1). constructor; [|apply Forall_app; split; auto].
      intros s0 w0. apply p_setupDirs; rk. }
    destruct (create_stage _ _ _ _ _ _ _ H2) as (rs & CR & R2 & C2 & K2).
    assert (K3 : results_kept s2 w2 s3 w3) by (refine (steps_results _ _ _ _ _ _ _ _ H3); apply Forall_app; auto).
    assert (N3 : NoDup (map key (sv_routes s3))).
    { assert (X : sv_routes s3 = rs) by (destruct K1 as (X & _), K3 as (Y & _); rewrite Y, R2, X, FR; reflexivity). rewrite X.
      eapply created_once; eauto. }
    assert (F3 : sv_customFuncs s3 = sv_customFuncs s) by rk.
    assert (M3 : sv_tempMain s3 = "").
    { assert (MN : forall e : M_Service.event, Forall (fun ea => forall s w, preserves main_kept (snd ea) s w) [(e, aret tt)]).
      { intros e. constructor; [|constructor]. intros s0 w0. unfold preserves. cbn. mk. }
      assert (CM := caching_main env s). fold ca in CM.
      assert (X1 : main_kept s w s1 w1).
      { refine (steps_main _ _ _ _ _ _ _ _ H1). constructor; [|apply Forall_app; split; auto]. intros s0 w0. apply p_setupDirs; mk. }
      assert (X2 : main_kept s1 w1 s2 w2).
      { refine (steps_main _ _ _ _ _ _ _ _ H2). apply Forall_map_in. intros i _ s0 w0. apply p_runCreate; mk. }
      assert (X3 : main_kept s2 w2 s3 w3) by (refine (steps_main _ _ _ _ _ _ _ _ H3); apply Forall_app; auto).
      unfold main_kept in *. congruence. }
    assert (K2c : sv_components s3 = []).
    { assert (X : sv_components s2 = sv_components s1) by (apply create_stage in H2 as (? & _ & _ & X & _); exact X). rk. }
    assert (MK4 : main_known s4).
    { refine (steps_main_stays _ _ _ _ _ _ _ _ H4 _); [|left; exact M3]. apply Forall_map_in. intros i _ s0 w0. apply parse_stays. }
    assert (SI : forall i, sv_inputs s = [i] -> in_parse i = PaGin ->
         e_analyse env (sv_customFuncs s) (sv_tempMain s4) (sv_routes s3) (sv_components s3) = Ok (sv_routes s4, sv_components s4, None) /\
         Forall2 (fun r r' => exists c c', parseRoute fuel (prog (sv_tempMain s4)) r c = Ok (r', c')) (sv_routes s3) (sv_routes s4)).
    { intros i EI EP. unfold pa in H4. rewrite EI in H4. cbn [map] in H4. apply steps_first in H4 as (? & s0 & w0 & X & Y).
      inversion Y; subst. rewrite EP in X. apply parse_gin in X as (X & _). rewrite F3 in X. split; auto.
      apply (analysed_all env (sv_customFuncs s) fuel prog) in X; auto. clear - X. induction X as [|? ? ? ? (_ & X)]; constructor; auto. }
    destruct (parse_stage env _ fuel prog _ A HP _ _ _ _ _ H4 F3 N3) as (ID & K4).
    destruct (parse_rounds env _ fuel prog _ A HP _ _ _ _ _ H4 F3 N3) as (_ & RO). fold (times s) in RO.
    assert (K4' : results_kept s4 w4 s4' w4') by (refine (steps_results _ _ _ _ _ _ _ _ H4'); auto).
    assert (M4 : sv_tempMain s4' = sv_tempMain s4) by (refine (steps_main _ _ _ _ _ _ _ _ H4'); apply caching_main).
    assert (CL : exists main, sv_routes s5 = cleanRoutes main (sv_routes s4') /\ sv_components s5 = cleanComponents main (sv_components s4') /\
                  temp_main main /\ sv_tempMain s5 = main /\ (sv_tempMain s4 = "" \/ sv_tempMain s4 = main)).
    { unfold cleanTypes in H5. apply bind_ok in H5 as (main & s0 & w0 & X & Y). unfold modify in Y. injection Y as <- <-.
      exists main. cbn [sv_routes sv_components sv_tempMain with_results].
      assert (P : preserves results_kept (GetMainPackageName env) s4' (noted EvClean w4')) by (apply p_getMain; rk).
      unfold preserves, after_service, after_world in P. rewrite X in P. destruct P as (P & PC & _). cbn [fst snd] in P, PC. rewrite P, PC.
      split; auto. split; auto. apply getMain_ok in X as (-> & X1 & X2); [|unfold main_known; rewrite M4; exact MK4].
      split; auto. split; auto. rewrite M4 in X2. destruct (string_dec (sv_tempMain s4) "") as [Q|Q]; [auto|right; symmetry; auto]. }
    assert (K6 : results_kept s5 w5 s6 w6).
    { refine (steps_results _ _ _ _ _ _ _ _ H6). apply Forall_app. split; auto. apply Forall_app. split; auto. apply results_later. }
    apply steps_first in H7 as (? & s7 & w7 & G & H7).
    assert (D7 : w_cwd w7 = w_cwd w /\ has_dir s w s7 /\ sane w7).
    { assert (SA6' : sane (noted (EvOutput (out_mode o)) w6)) by exact SA6.
      destruct SA6' as (CP & PT).
      assert (B : forall x, (fun s1 => has_dir s w s1) x -> locate (w_cwd (noted (EvOutput (out_mode o)) w6)) (sv_workDir x) = work_dir s w).
      { intros y Y. cbn [w_cwd noted]. rewrite C6. now apply hd_base. }
      assert (F : preserves (moments (w_cwd (noted (EvOutput (out_mode o)) w6)) (has_dir s w) (unchanged (fun _ => True) (fun q => None))) (runGenerate env (List.length pre) o) s6 (noted (EvOutput (out_mode o)) w6)).
      { apply (f_runGenerate _ _ _ _ CP env (work_dir s w) B); auto.
        - intros (_ & W). exact W.
        - intros _ r. exact I.
        - intros q' _. exact I. }
      unfold preserves, after_service, after_world in F. rewrite G in F. cbn [fst snd] in F.
      destruct (F eq_refl D6) as (C7 & D7 & (U7 & _) & _); [split; [exact PT|intros q' N; now contradiction N]|].
      cbn [w_cwd noted] in C7. split; [congruence|]. split; auto. split; [rewrite C7, C6; exact (proj1 sane0)|exact U7]. }
    destruct D7 as (C7 & D7 & SA7).
    assert (FX := suffix_frame post _ _ _ _ _ _ _ LA C7 D7 SA7 H7).
    assert (M6 : sv_tempMain s' = sv_tempMain s5).
    { assert (X6 : main_kept s5 w5 s6 w6).
      { refine (steps_main _ _ _ _ _ _ _ _ H6). apply Forall_app. split; [apply caching_main|]. apply Forall_app. split; [|apply generates_main].
        constructor; [|constructor]. intros s0 w0. unfold preserves. cbn. mk. }
      assert (X7 : preserves main_kept (runGenerate env (List.length pre) o) s6 (noted (EvOutput (out_mode o)) w6)) by (apply p_runGenerate; mk).
      unfold preserves, after_service, after_world in X7. rewrite G in X7. cbn [fst snd] in X7.
      assert (X8 : main_kept s7 w7 s' w').
      { refine (steps_main _ _ _ _ _ _ _ _ H7). apply Forall_app. split; [apply generates_main|]. apply Forall_app. split; [apply caching_main|].
        constructor; [|constructor]. intros s0 w0. apply p_cleanUp; mk. }
      unfold main_kept in *. congruence. }
    destruct D6 as (D6 & W6). destruct CL as (main & CL & CLc & TM & EM & MM).
    assert (X : sv_routes s3 = rs) by (destruct K1 as (X & _), K3 as (Y & _); rewrite Y, R2, X, FR; reflexivity).
    rewrite X, K2c in *.
    exists rs, (sv_routes s4), main, (sv_components s4), s6, (noted (EvOutput (out_mode o)) w6), s7, w7.
    assert (Y : sv_denyList s1 = sv_denyList s /\ w_cwd w1 = w_cwd w) by rk. destruct Y as (Y1 & Y2). rewrite Y1, Y2 in CR.
    split; [exact CR|]. split; [exact ID|]. split.
    { intros i EI EP. exists (sv_tempMain s4). split; [exact MM|exact (SI i EI EP)]. }
    split. { clear - RO MM. induction RO; constructor; auto. eapply rounds_main; eauto. }
    split; [exact TM|]. split; [congruence|].
    split. { destruct K6 as (Q & _), K4' as (Q' & _); rewrite Q, CL, Q'; reflexivity. }
    split. { destruct K6 as (_ & Q & _), K4' as (_ & Q' & _); rewrite Q, CLc, Q'; reflexivity. }
    split; [exact W6|]. split. { unfold work_dir at 1. cbn [w_cwd noted]. rewrite C6. apply (hd_base s w). split; auto. }
    split; auto.
  Qed.

  (** For an OpenAPI output, with polite custom functions. *)
  Lemma whole_run_with fuel prog pre o post x s' w' :
    started s -> analyses_with env (sv_customFuncs s) fuel prog -> Forall polite (sv_customFuncs s) -> served_once s ->
    sv_outputs s = (pre ++ o :: post)%list -> out_generate o = GeOpenAPI x -> left_alone s w post (document_place s w x) ->
    Parse env s w = (Ok tt, s', w') ->
    exists rs routes main comps d custom config names0 names,
      created (e_rel env ("/" ++ join "/" (w_cwd w))) (sv_denyList s) (served s) rs /\
      Forall2 same_identity rs routes /\
      (forall i, sv_inputs s = [i] -> in_parse i = PaGin -> exists main0, (main0 = "" \/ main0 = main) /\
         e_analyse env (sv_customFuncs s) main0 rs [] = Ok (routes, comps, None) /\
         Forall2 (fun r r' => exists c c', parseRoute fuel (prog main0) r c = Ok (r', c')) rs routes) /\
      Forall2 (rounds fuel prog main (times s)) rs routes /\
      temp_main main /\ sv_tempMain s' = main /\
      generated (e_orders env) custom config (cleanRoutes main routes) (cleanComponents main comps) names0 d names /\
      kind_at (document_place s w x) (w_fs w') = Some (KFile (CDocument (is_yaml (openapiPath x)) d)) /\
      (Forall no_document pre -> custom = (match sv_memo s with Some c => c | None => sv_customTypes s end) /\ names0 = w_names w).
  Proof.
    intros FR A HP ON EO GO LA E.
    destruct (run_until fuel prog pre o post _ s' w' FR A HP ON EO LA E)
      as (rs & routes & main & comps & s6 & w6 & s7 & w7 & CR & ID & SI & RO & TM & EM & R6 & C6 & W6 & D6 & G & K7 & SK).
    apply (generate_document env _ o x) in G as (d & names & custom & EC & G & KD); auto.
    exists rs, routes, main, comps, d, custom, (sv_config s6), (w_names w6), names.
    do 6 (split; auto). split; [rewrite <- R6, <- C6; exact G|].
    split; [rewrite K7; unfold document_place; now rewrite D6 in KD|].
    intros ND. destruct (SK ND) as (A1 & A2 & A3). split; [now rewrite EC, A1, A2|exact A3].
  Qed.

  (** For a JSON output, with polite custom functions. *)
  Lemma whole_json_with fuel prog pre o post x s' w' :
    started s -> analyses_with env (sv_customFuncs s) fuel prog -> Forall polite (sv_customFuncs s) -> served_once s ->
    sv_outputs s = (pre ++ o :: post)%list -> out_generate o = GeJSON x ->
    left_alone s w post (place (work_dir s w) (with_extension [".json"] x)) ->
    Parse env s w = (Ok tt, s', w') ->
    exists rs routes main comps,
      created (e_rel env ("/" ++ join "/" (w_cwd w))) (sv_denyList s) (served s) rs /\
      Forall2 same_identity rs routes /\
      (forall i, sv_inputs s = [i] -> in_parse i = PaGin -> exists main0, (main0 = "" \/ main0 = main) /\
         e_analyse env (sv_customFuncs s) main0 rs [] = Ok (routes, comps, None) /\
         Forall2 (fun r r' => exists c c', parseRoute fuel (prog main0) r c = Ok (r', c')) rs routes) /\
      Forall2 (rounds fuel prog main (times s)) rs routes /\
      temp_main main /\ sv_tempMain s' = main /\
      kind_at (place (work_dir s w) (with_extension [".json"] x)) (w_fs w')
        = Some (KFile (CResults (cleanRoutes main routes) (cleanComponents main comps))).
  Proof.
    intros FR A HP ON EO GO LA E.
    destruct (run_until fuel prog pre o post _ s' w' FR A HP ON EO LA E)
      as (rs & routes & main & comps & s6 & w6 & s7 & w7 & CR & ID & SI & RO & TM & EM & R6 & C6 & W6 & D6 & G & K7 & _).
    apply (generate_results env _ o x) in G; auto.
    exists rs, routes, main, comps. do 6 (split; auto). rewrite <- R6, <- C6, K7. now rewrite D6 in G.
  Qed.

  (** Without custom functions. *)
  Lemma whole_run fuel prog pre o post x s' w' :
    fresh s -> analyses env fuel prog -> served_once s ->
    sv_outputs s = (pre ++ o :: post)%list -> out_generate o = GeOpenAPI x -> left_alone s w post (document_place s w x) ->
    Parse env s w = (Ok tt, s', w') ->
    exists rs routes main comps d custom config names0 names,
      created (e_rel env ("/" ++ join "/" (w_cwd w))) (sv_denyList s) (served s) rs /\
      Forall2 same_identity rs routes /\
      (forall i, sv_inputs s = [i] -> in_parse i = PaGin -> exists main0, (main0 = "" \/ main0 = main) /\
         e_analyse env [] main0 rs [] = Ok (routes, comps, None) /\
         Forall2 (fun r r' => exists c c', parseRoute fuel (prog main0) r c = Ok (r', c')) rs routes) /\
      Forall2 (rounds fuel prog main (times s)) rs routes /\
      temp_main main /\ sv_tempMain s' = main /\
      generated (e_orders env) custom config (cleanRoutes main routes) (cleanComponents main comps) names0 d names /\
      kind_at (document_place s w x) (w_fs w') = Some (KFile (CDocument (is_yaml (openapiPath x)) d)) /\
      (Forall no_document pre -> custom = (match sv_memo s with Some c => c | None => sv_customTypes s end) /\ names0 = w_names w).
  Proof.
    intros (FR & FC & FF & FM) A ON EO GO LA E.
    assert (A' : analyses_with env (sv_customFuncs s) fuel prog) by (rewrite FF; exact A).
    assert (HP : Forall polite (sv_customFuncs s)) by (rewrite FF; constructor).
    assert (X := whole_run_with fuel prog pre o post x s' w' (conj FR (conj FC FM)) A' HP ON EO GO LA E). now rewrite FF in X.
  Qed.
  Lemma whole_json fuel prog pre o post x s' w' :
    fresh s -> analyses env fuel prog -> served_once s ->
    sv_outputs s = (pre ++ o :: post)%list -> out_generate o = GeJSON x ->
    left_alone s w post (place (work_dir s w) (with_extension [".json"] x)) ->
    Parse env s w = (Ok tt, s', w') ->
    exists rs routes main comps,
      created (e_rel env ("/" ++ join "/" (w_cwd w))) (sv_denyList s) (served s) rs /\
      Forall2 same_identity rs routes /\
      (forall i, sv_inputs s = [i] -> in_parse i = PaGin -> exists main0, (main0 = "" \/ main0 = main) /\
         e_analyse env [] main0 rs [] = Ok (routes, comps, None) /\
         Forall2 (fun r r' => exists c c', parseRoute fuel (prog main0) r c = Ok (r', c')) rs routes) /\
      Forall2 (rounds fuel prog main (times s)) rs routes /\
      temp_main main /\ sv_tempMain s' = main /\
      kind_at (place (work_dir s w) (with_extension [".json"] x)) (w_fs w')
        = Some (KFile (CResults (cleanRoutes main routes) (cleanComponents main comps))).
  Proof.
    intros (FR & FC & FF & FM) A ON EO GO LA E.
    assert (A' : analyses_with env (sv_customFuncs s) fuel prog) by (rewrite FF; exact A).
    assert (HP : Forall polite (sv_customFuncs s)) by (rewrite FF; constructor).
    assert (X := whole_json_with fuel prog pre o post x s' w' (conj FR (conj FC FM)) A' HP ON EO GO LA E). now rewrite FF in X.
  Qed.
End Whole.
