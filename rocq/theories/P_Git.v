(** A run and a .gitignore that is already there. *)
From Coq Require Import List String Ascii Bool ZArith Arith Lia.
From Verif Require Import BaseStr BaseMap M_Types M_Collect M_OpenAPI M_Clean M_FS M_Service S_Service S_Cache S_Files P_FS P_Path P_Act P_Order P_Frame P_Azure.
Import ListNotations.
Local Open Scope string_scope.

Section Git.
  Context (env : Env) (s0 : Service) (w0 : World) (sane0 : sane w0).
  Let cwd := w_cwd w0.
  Let base := work_dir s0 w0.
  Let git := (base ++ [".astra"; ".gitignore"])%list.
  Let T := fun q => run_place s0 w0 q /\ q <> git.
  Let K := fun q => kind_at q (w_fs w0).
  Context (no_fault : forall n, e_fault env n = None).
  Context (stays : sv_cacheEnabled s0 = true \/ sv_cliMode s0 <> CLIModeNone).
  Context (no_cache : sv_cacheEnabled s0 = true -> ~ inside (cache_place s0 w0) git).
  Context (no_output : forall o, In o (sv_outputs s0) -> ~ output_place base o git).

  Lemma g_below x r : x <> ".gitignore" -> (base ++ [".astra"; x] ++ r)%list <> git.
  Proof. intros N E. unfold git in E. apply app_inv_head in E. cbn in E. congruence. Qed.

  Lemma g_dir : T (base ++ [".astra"]).
  Proof.
    split; [exact (astra_dir s0 w0)|]. unfold git. intros E. apply app_inv_head in E. discriminate.
  Qed.
  Lemma g_main : all_below T (base ++ [".astra"; "astramain"]).
  Proof.
    intros r. split; [apply (astra_main s0 w0)|]. rewrite <- app_assoc. apply g_below. discriminate.
  Qed.

  Notation same_dirs := (same_dirs s0 w0).
  Notation has_dir := (has_dir s0 w0).

  Lemma g_setupAstra s w :
    kind_at git (w_fs w0) <> None -> s = s0 -> w_cwd w = cwd -> kind_at base (w_fs w) = Some KDir ->
    preserves (moments cwd same_dirs (unchanged T K)) (setupAstraDir env) s w.
  Proof.
    intros there -> WC D. destruct sane0 as (CP & PT). assert (P : plain_name ".gitignore") by (repeat split; discriminate).
    assert (E : locate cwd (sv_workDir s0) = base) by reflexivity.
    unfold setupAstraDir, setupGitIgnore. mstep. mstep.
    - apply m_call_tree. rewrite (astra_at cwd base) by auto. intros t' U C.
      refine (u_mkdir_all T K _ _ _ _ _ _ D U C).
      + rewrite <- (astra_at cwd base s0 E). now apply locate_plain.
      + exact g_dir.
    - match goal with X : os_MkdirAll _ _ _ _ = (_, ?x, _) |- _ => apply call_same in X; subst x end.
      mstep. apply m_intro. intros WC2 _ (_ & U2).
      assert (G : kind_at git (w_fs w') <> None) by (rewrite U2; [exact there|intros (_ & N); now apply N]).
      mstep; [mstep|].
      match goal with X : os_Stat _ _ _ _ = _ |- _ => unfold os_Stat in X; rewrite no_fault in X; injection X as <- <- <- end.
      rewrite WC2, (in_astra cwd base) by auto.
      destruct (get (base ++ [".astra"; ".gitignore"]) (w_fs w')) as [x|] eqn:EG; [mstep|].
      exfalso. apply G. unfold kind_at. fold git in EG. now rewrite EG.
  Qed.

  Lemma g_setup s w :
    kind_at git (w_fs w0) <> None -> s = s0 -> w_cwd w = cwd -> w_fs w = w_fs w0 -> kind_at base (w_fs w0) = Some KDir ->
    preserves (moments cwd same_dirs (unchanged T K)) (setupDirs env) s w.
  Proof.
    intros there -> E F D. destruct sane0 as (CP & PT).
    assert (B : locate cwd (sv_workDir s0) = base) by reflexivity.
    unfold setupDirs. mstep.
    - apply g_setupAstra; auto. now rewrite F.
    - mstep. destruct (String.eqb _ _) eqn:WD; [|mstep]. apply String.eqb_eq in WD.
      apply m_intro. intros C (S & _) _. rewrite WD, locate_empty in S. mstep; [mstep|].
      apply m_modify. intros (_ & S'). split; [|exact S']. unfold with_workDir. cbn [sv_workDir].
      match goal with E : os_Getwd _ _ _ = _ |- _ => revert E end. unfold os_Getwd.
      destruct (e_fault _ _); [discriminate|]. intros X. match type of X with (Ok ?d, _, _) = (Ok ?a, _, _) => assert (a = d) as -> by congruence end.
      rewrite locate_cwd, C; auto. now rewrite C.
  Qed.

  Notation ok k := (preserves (moments cwd has_dir (unchanged T k))).
  Lemma g_base s : has_dir s -> locate cwd (sv_workDir s) = base.
  Proof. intros ((A & _) & _). exact A. Qed.

  Lemma g_later K' :
    Forall (fun ea => forall s w, ok K' (snd ea) s w) (tl (setup_steps env s0) ++ complete_steps env s0).
  Proof.
    destruct sane0 as (CP & _).
    assert (C : Forall (fun ea => forall s w, ok K' (snd ea) s w) (caching env s0)).
    { apply f_cacheIfEnabled_steps; auto. intros E s (S & _) r. split; [now apply cache_below|].
      intros X. apply (no_cache E). exists r. rewrite <- X. f_equal. now apply cache_same. }
    assert (N : forall s w, ok K' (aret tt) s w) by (intros; mstep).
    unfold setup_steps, complete_steps. cbn [tl].
    repeat match goal with
           | |- Forall _ (_ ++ _) => apply Forall_app; split
           | |- Forall _ (_ :: _) => constructor
           | |- Forall _ [] => constructor
           | _ => assumption
           end.
    - apply Forall_map_in. intros i _ s w. apply f_runCreate. auto.
    - apply Forall_map_in. intros i _ s w. apply (f_runParse _ _ _ _ CP env base g_main g_base); auto.
    - intros s w. apply (f_cleanTypes _ _ _ _ CP env base g_main g_base); auto.
    - apply Forall_map_in. intros i I s w. apply numbered_in in I.
      apply (f_runGenerate _ _ _ _ CP env base g_base); auto.
      + intros (_ & W). exact W.
      + intros A r. split.
        * left. right. right. right. left. split; [now exists (snd i)|]. exists r. now rewrite <- !app_assoc.
        * rewrite <- app_assoc. apply g_below. discriminate.
      + intros q Q. split; [right; right; exists (snd i); auto|]. intros ->. exact (no_output _ I Q).
    - intros s w. apply (f_cleanUp _ _ _ _ env base g_main g_base); auto.
      intros ((_ & _ & A & B) & _) X Y. exfalso. destruct stays as [Z|Z]; congruence.
  Qed.

  Lemma git_frame r s' w' :
    kind_at git (w_fs w0) <> None -> kind_at base (w_fs w0) = Some KDir -> Parse env s0 w0 = (r, s', w') ->
    unchanged T K (w_fs w') /\ exists new, w_past w' = (new ++ w_past w0)%list /\ Forall (unchanged T K) new.
  Proof.
    intros there D E.
    assert (U0 : unchanged T K (w_fs w0)) by (destruct sane0; split; auto).
    assert (Z : sv_inputs s0 = [] \/ sv_outputs s0 = [] \/ (sv_inputs s0 <> [] /\ sv_outputs s0 <> [])).
    { destruct (sv_inputs s0); auto. destruct (sv_outputs s0); auto. right. right. split; discriminate. }
    destruct Z as [Z|[Z|(A & B)]].
    1,2: assert (X : exists e, Parse env s0 w0 = (Err e, s0, w0))
      by (unfold Parse, SetupParse; unfold abind at 1 2; unfold checkIO, abind, service;
          destruct (sv_inputs s0); [eexists; reflexivity|]; destruct (sv_outputs s0); [eexists; reflexivity|discriminate]);
      destruct X as (e & X); rewrite X in E; injection E as <- <- <-; split; [exact U0|exists []; auto].
    destruct (parse_run_is env s0 w0 A B) as (es & r2 & s2 & w2 & E2 & H).
    rewrite E in E2. injection E2 as <- <- <-.
    assert (LO := g_later K). change (setup_steps env s0) with ((EvSetup, setupDirs env) :: tl (setup_steps env s0)) in H.
    cbn [app] in H. inversion H as [|e a l ? ? s1 w1 es1 ? ? ? E1 H1|e a l ? ? ? ? ? E1 N1]; subst.
    - assert (R := g_setup s0 (noted EvSetup w0) there eq_refl eq_refl eq_refl D).
      unfold preserves, after_service, after_world in R. rewrite E1 in R. cbn [fst snd] in R.
      destruct (R eq_refl) as (C1 & S1 & U1 & n1 & P1 & F1); [repeat split; reflexivity|exact U0|].
      assert (R2 := run_steps_moments cwd has_dir (unchanged T K) _ _ _ _ _ _ _ LO H1).
      destruct (R2 C1) as (C2 & S2 & U2 & n2 & P2 & F2); [split; [exact S1|eapply setup_has_dir; eauto]|exact U1|].
      split; [exact U2|]. exists (n2 ++ n1)%list. split; [rewrite P2, P1; now rewrite <- app_assoc|]. apply Forall_app. auto.
    - assert (R := g_setup s0 (noted EvSetup w0) there eq_refl eq_refl eq_refl D).
      unfold preserves, after_service, after_world in R. rewrite E1 in R. cbn [fst snd] in R.
      destruct (R eq_refl) as (C1 & S1 & U1 & n1 & P1 & F1); [repeat split; reflexivity|exact U0|].
      split; [exact U1|]. exists n1. auto.
  Qed.

  Lemma g_written s1 w1 :
    kind_at git (w_fs w0) = None -> setupDirs env s0 (noted EvSetup w0) = (Ok tt, s1, w1) ->
    kind_at git (w_fs w1) = Some (KFile (CBytes (String "*" (str1 (ascii_of_nat 10))))).
  Proof.
    intros AB E. destruct sane0 as (CP & PT). assert (P : plain_name ".gitignore") by (repeat split; discriminate).
    assert (B : locate cwd (sv_workDir s0) = base) by reflexivity.
    unfold setupDirs in E. apply bind_ok in E as ([] & s2 & w2 & E & E2).
    assert (F2 : w_fs w1 = w_fs w2).
    { unfold abind at 1, service in E2. destruct (String.eqb _ _).
      - apply bind_ok in E2 as (d & s3 & w3 & G & M). unfold modify in M. injection M as <- <-.
        revert G. unfold os_Getwd. rewrite no_fault. now intros [= <- <- <-].
      - unfold aret in E2. now injection E2 as <- <-. }
    rewrite F2. clear E2 F2. unfold setupAstraDir in E. unfold abind at 1, service in E.
    apply bind_ok in E as ([] & s3 & w3 & M & E). unfold os_MkdirAll in M. apply call_ok in M as (-> & C3 & M).
    cbn [w_cwd noted w_fs] in C3, M. rewrite (astra_at cwd base) in M by auto.
    assert (MS := mkdir_all_spec _ _ _ M).
    assert (A3 : kind_at git (w_fs w3) = None).
    { rewrite MS. replace (is_prefix git (base ++ [".astra"])) with false; [exact AB|].
      destruct (is_prefix git _) eqn:X; auto. apply is_prefix_spec in X as (r & X). unfold git in X.
      rewrite <- app_assoc in X. apply app_inv_head in X. discriminate. }
    unfold setupGitIgnore in E. unfold abind at 1, service in E. apply bind_ok in E as (st & s4 & w4 & ST & E).
    unfold os_Stat in ST. rewrite no_fault in ST. rewrite C3, (in_astra cwd base) in ST by auto.
    unfold kind_at in A3. fold git in ST. destruct (get git (w_fs w3)) as [[f|l]|] eqn:GT; [discriminate|discriminate|]. injection ST as <- <- <-.
    assert (W : os_WriteFile env (path_Join [getAstraDirPath s0; ".gitignore"]) (CBytes (String "*" (str1 (ascii_of_nat 10)))) s0 (tick (w_fs w3) w3) = (Ok tt, s2, w2)) by (destruct (through_file git (w_fs w3)); exact E).
    apply writefile_ok in W as (_ & _ & _ & KW). rewrite KW. cbn [tick w_cwd].
    rewrite C3, (in_astra cwd base) by auto. fold git. now rewrite is_prefix_refl.
  Qed.

  Lemma git_new s' w' :
    kind_at git (w_fs w0) = None -> kind_at base (w_fs w0) = Some KDir -> Parse env s0 w0 = (Ok tt, s', w') ->
    kind_at git (w_fs w') = Some (KFile (CBytes (String "*" (str1 (ascii_of_nat 10))))).
  Proof.
    intros AB D E.
    assert (Z : sv_inputs s0 = [] \/ sv_outputs s0 = [] \/ (sv_inputs s0 <> [] /\ sv_outputs s0 <> [])).
    { destruct (sv_inputs s0); auto. destruct (sv_outputs s0); auto. right. right. split; discriminate. }
    destruct Z as [Z|[Z|(A & B)]].
    1,2: assert (X : exists e, Parse env s0 w0 = (Err e, s0, w0))
      by (unfold Parse, SetupParse; unfold abind at 1 2; unfold checkIO, abind, service;
          destruct (sv_inputs s0); [eexists; reflexivity|]; destruct (sv_outputs s0); [eexists; reflexivity|discriminate]);
      destruct X as (e & X); rewrite X in E; discriminate.
    destruct (parse_run_is env s0 w0 A B) as (es & r2 & s2 & w2 & E2 & H).
    rewrite E in E2. injection E2 as <- <- <-.
    change (setup_steps env s0) with ((EvSetup, setupDirs env) :: tl (setup_steps env s0)) in H.
    cbn [app] in H. inversion H as [|e a l ? ? s1 w1 es1 ? ? ? E1 H1|e a l ? ? ? ? ? E1 N1]; subst.
    - assert (R := run_setup env s0 w0 sane0 s0 (noted EvSetup w0) eq_refl eq_refl eq_refl D).
      unfold preserves, after_service, after_world in R. rewrite E1 in R. cbn [fst snd] in R.
      destruct (R eq_refl) as (C1 & S1 & U1 & n1 & P1 & F1); [repeat split; reflexivity|destruct sane0; split; auto|].
      assert (R2 := run_steps_moments cwd has_dir (unchanged T (fun q => kind_at q (w_fs w1))) _ _ _ _ _ _ _ (g_later _) H1).
      destruct (R2 C1) as (C2 & S2 & (_ & U2) & _); [split; [exact S1|eapply setup_has_dir; eauto]|split; [apply U1|auto]|].
      rewrite U2 by (intros (_ & N); now apply N). eapply g_written; eauto.
    - match goal with N : _ <> _ |- _ => now destruct N | N : forall _, _ |- _ => now destruct (N tt) end.
  Qed.
End Git.
