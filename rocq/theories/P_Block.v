(** A temporary Azure output left behind. *)
From Coq Require Import List String Ascii Bool ZArith Arith Lia.
From Verif Require Import BaseStr BaseMap M_Types M_Collect M_OpenAPI M_Parse M_Clean M_FS M_Service.
From Verif Require Import S_Service S_Cache S_Files S_Twice P_FS P_Path P_Act P_Order P_Frame P_Azure P_Cache P_Load P_Main P_Again P_Chain P_Twice P_Sim P_Left.
Import ListNotations.
Local Open Scope string_scope.

Lemma run_steps_split l1 l2 s w es s' w' :
  run_steps (l1 ++ l2) s w es (Ok tt) s' w' ->
  exists es1 s1 w1 es2, run_steps l1 s w es1 (Ok tt) s1 w1 /\ run_steps l2 s1 w1 es2 (Ok tt) s' w'.
Proof.
  revert s w es. induction l1 as [|(e0, a0) l IH]; intros s w es H; cbn [app] in H.
  - exists [], s, w, es. split; [constructor|exact H].
  - inversion H as [|? ? ? ? ? s1 w1 es1 ? ? ? E1 H1|]; subst; [|congruence].
    apply IH in H1 as (es2 & s2 & w2 & es3 & H2 & H3). exists (e0 :: es2), s2, w2, es3. split; [eapply rs_ok; eauto|exact H3].
Qed.
Lemma numbered_app {A} n (l1 l2 : list A) : numbered n (l1 ++ l2) = (numbered n l1 ++ numbered (n + List.length l1) l2)%list.
Proof.
  revert n. induction l1 as [|a l IH]; intros n; cbn [app numbered List.length]; [now rewrite Nat.add_0_r|].
  rewrite IH. cbn. now rewrite Nat.add_succ_r.
Qed.
Lemma first_azure l : (exists o, In o l /\ is_azure o) -> exists l1 o l2, l = (l1 ++ o :: l2)%list /\ is_azure o /\ Forall (fun o => ~ is_azure o) l1.
Proof.
  induction l as [|x l IH]; intros (o & I & A); [easy|].
  assert (X : is_azure x \/ ~ is_azure x).
  { unfold is_azure. destruct (out_generate x); [right|right|right|left|right]; try (intros (d' & E); discriminate). eauto. }
  destruct X as [X|X]; [exists [], x, l; auto|]. destruct I as [<-|I]; [easy|].
  destruct IH as (l1 & o' & l2 & -> & A' & F); [eauto|]. exists (x :: l1), o', l2. auto.
Qed.

Section Block.
  Context (env : Env) (s0 : Service) (w0 : World) (sane0 : sane w0).
  Let base := work_dir s0 w0.
  Let azure := (base ++ [".astra"; "azure"])%list.
  Let cwd := w_cwd w0.
  Context (C0 : sv_cacheEnabled s0 = true -> sv_cachePath s0 = "") (DIR : kind_at base (w_fs w0) = Some KDir).
  Context (LEFT : kind_at azure (w_fs w0) <> None).
  Let T := fun q => q <> azure.
  Let K := fun q => kind_at q (w_fs w0).
  Notation Inv := (unchanged T K).
  Notation later := (later_dirs base cwd s0).
  Notation start := (start_dirs base cwd s0).
  Notation ok := (preserves (moments cwd later Inv)).

  Lemma T_in k r : k <> "azure" -> T (base ++ ".astra" :: k :: r)%list.
  Proof. intros N E. unfold azure in E. apply app_inv_head in E. injection E as E _. congruence. Qed.
  Lemma T_below k : k <> "azure" -> all_below T (base ++ [".astra"; k]).
  Proof. intros N r. rewrite <- app_assoc. now apply T_in. Qed.
  Lemma T_astra : T (base ++ [".astra"])%list.
  Proof. intros E. unfold azure in E. apply app_inv_head in E. discriminate. Qed.

  Lemma block_setup s w : start s -> w_fs w = w_fs w0 -> preserves (moments cwd start Inv) (setupDirs env) s w.
  Proof.
    intros DS F. destruct sane0 as (CP & PT). unfold setupDirs. mstep.
    - apply (f_setupAstraDir _ _ _ _ CP _ base T_astra); [now apply T_in|apply DS|now rewrite F].
    - mstep. destruct (String.eqb _ _) eqn:WD; [|mstep]. apply String.eqb_eq in WD.
      apply m_intro. intros C (S & _) _. rewrite WD, locate_empty in S. mstep; [mstep|].
      apply m_modify. intros (_ & S'). split; [|exact S']. unfold with_workDir. cbn [sv_workDir].
      match goal with E : os_Getwd _ _ _ = _ |- _ => revert E end. unfold os_Getwd.
      destruct (e_fault _ _); [discriminate|]. intros X. match type of X with (Ok ?d, _, _) = (Ok ?a, _, _) => assert (a = d) as -> by congruence end.
      rewrite locate_cwd, C; auto. now rewrite C.
  Qed.
  Lemma block_caching : Forall (fun ea => forall s w, ok (snd ea) s w) (caching env s0).
  Proof.
    destruct sane0 as (CP & _). apply f_cacheIfEnabled_steps; auto. intros E s ((A & B & C) & _).
    assert (X : cachePath s = path_Join [getAstraDirPath s; "cache.json"]) by (unfold cachePath; rewrite B, C0; auto).
    rewrite X, locate_join_plain, (astra_at cwd base) by (auto; exact plain_cache). rewrite <- app_assoc. now apply T_below.
  Qed.

  Lemma blocked s' w' : (exists o, In o (sv_outputs s0) /\ is_azure o) -> Parse env s0 w0 <> (Ok tt, s', w').
  Proof.
    intros AZ E. assert (LB := later_base base cwd s0). destruct (first_azure _ AZ) as (l1 & o & l2 & OUT & (d & GE) & NA).
    assert (A : sv_inputs s0 <> []).
    { intros Z. unfold Parse, SetupParse in E. unfold abind at 1 2 in E. unfold checkIO, abind, service in E. rewrite Z in E. discriminate. }
    assert (B : sv_outputs s0 <> []) by (rewrite OUT; now destruct l1).
    destruct (parse_run_is env s0 w0 A B) as (es & r2 & s2 & w2 & E2 & H). rewrite E in E2. injection E2 as <- <- <-.
    destruct sane0 as (CP & PT).
    assert (U0 : Inv (w_fs w0)) by (split; auto).
    change (setup_steps env s0) with ((EvSetup, setupDirs env) :: tl (setup_steps env s0)) in H. cbn [app] in H.
    inversion H as [|e a l ? ? s1 w1 es1 ? ? ? E1 H1|]; subst; [|congruence].
    assert (S0 : start s0) by (repeat split; auto).
    assert (R := block_setup s0 (noted EvSetup w0) S0 eq_refl). unfold preserves, after_service, after_world in R.
    rewrite E1 in R. cbn [fst snd] in R. destruct (R eq_refl S0 U0) as (C1 & S1 & U1 & _).
    assert (W1 := setup_has_dir _ _ _ _ _ E1). clear R E1 H.
    set (g := fun no : nat * Output => (EvOutput (out_mode (snd no)), runGenerate env (fst no) (snd no))).
    assert (SP : exists pre post, (tl (setup_steps env s0) ++ complete_steps env s0)%list = (pre ++ g (List.length l1, o) :: post)%list /\
                                  Forall (fun ea => forall s w, ok (snd ea) s w) pre).
    { unfold complete_steps. fold g. rewrite OUT, numbered_app, map_app. cbn [numbered map plus].
      eexists (tl (setup_steps env s0) ++ (EvParse, aret tt) :: map _ (sv_inputs s0) ++ caching env s0 ++
        (EvClean, cleanTypes env) :: caching env s0 ++ (EvGenerate, aret tt) :: map g (numbered 0 l1))%list, _. split.
      - rewrite <- !app_assoc. cbn [app]. f_equal. f_equal. rewrite <- !app_assoc. f_equal. f_equal. cbn [app]. f_equal. rewrite <- !app_assoc. cbn [app]. reflexivity.
      - assert (C := block_caching). assert (N : forall s w, ok (aret tt) s w) by (intros; mstep).
        assert (TM : all_below T (base ++ [".astra"; "astramain"])) by now apply T_below.
        unfold setup_steps. cbn [tl].
        repeat match goal with
               | |- Forall _ (_ ++ _) => apply Forall_app; split
               | |- Forall _ (_ :: _) => constructor
               | |- Forall _ [] => constructor
               | _ => assumption
               end.
        + apply Forall_map_in. intros i _ s w. apply f_runCreate. auto.
        + apply Forall_map_in. intros i _ s w. apply (f_runParse _ _ _ _ CP env base TM LB); auto.
        + intros s w. apply (f_cleanTypes _ _ _ _ CP env base TM LB); auto.
        + apply Forall_map_in. intros i I s w. assert (J : In (snd i) l1) by (eapply numbered_in; eauto).
          rewrite Forall_forall in NA. specialize (NA _ J). cbn [g snd].
          apply (f_runGenerate _ _ _ _ CP env base LB); auto.
          * intros (_ & X). exact X.
          * intros X. now destruct NA.
          * intros q Q -> . destruct (output_named _ _ _ NA Q) as (p & k & EQ & DN).
            unfold azure in EQ. change [".astra"; "azure"] with ([".astra"] ++ ["azure"])%list in EQ. rewrite app_assoc in EQ. apply app_inj_tail in EQ as (_ & <-).
            destruct DN as (e & [->|[->| ->]] & DN); vm_compute in DN; discriminate. }
    destruct SP as (pre & post & SP & F).
    assert (H1' : run_steps (pre ++ g (List.length l1, o) :: post) s1 w1 es1 (Ok tt) s' w') by (rewrite <- SP; exact H1).
    apply run_steps_split in H1' as (es2 & s2 & w2 & es3 & H2 & H3).
    destruct (run_steps_moments _ _ _ _ _ _ _ _ _ _ F H2 C1) as (C2 & ((S2 & _) & W2) & (_ & U2) & _); [split; auto|exact U1|].
    inversion H3 as [|? ? ? ? ? s3 w3 es4 ? ? ? E3 _|]; subst; [|congruence].
    cbn [fst snd] in E3. unfold runGenerate in E3. rewrite GE in E3. unfold generateAzure, SetupTempOutputDir in E3.
    apply bind_ok in E3 as (? & s4 & w4 & E3 & _). unfold abind at 1, service in E3. apply bind_ok in E3 as (? & s5 & w5 & E3 & _).
    destruct x0. apply call_ok in E3 as (_ & _ & M). apply mkdir_spec in M as (M & _).
    assert (PA : plain_name "azure") by (repeat split; discriminate).
    rewrite locate_join_plain in M by exact PA. change (w_cwd (noted _ w2)) with (w_cwd w2) in M. rewrite C2, (astra_at cwd base) in M by auto.
    rewrite <- app_assoc in M. cbn [app] in M. change (w_fs (noted _ w2)) with (w_fs w2) in M.
    apply LEFT. fold (K azure). rewrite <- U2; [exact M|]. intros X. now apply X.
  Qed.
End Block.
