(** What runs leave behind for later ones. *)
From Coq Require Import List String Ascii Bool ZArith Arith Lia.
From Verif Require Import BaseStr BaseMap M_Types M_Collect M_OpenAPI M_Parse M_Clean M_FS M_Service.
From Verif Require Import S_Service S_Cache S_Files S_Twice P_FS P_Path P_Act P_Order P_Frame P_Azure P_Cache P_Load P_Main P_Again P_Chain P_Twice P_Sim.
Import ListNotations.
Local Open Scope string_scope.

Definition document_name (k : string) : Prop := exists e, ending e /\ has_suffix e k = true.

Lemma place_named base x e : ending e -> has_suffix e x = true -> exists p k, place base x = (p ++ [k])%list /\ has_suffix e k = true.
Proof.
  intros H S.
  assert (X : exists l k, split "/" x = (l ++ [k])%list /\ plain_name k /\ has_suffix e k = true).
  { destruct H as [->|[->| ->]]; [apply (last_plain x "jso" "n")|apply (last_plain x "yam" "l")|apply (last_plain x "ym" "l")]; auto; discriminate. }
  destruct X as (l & k & E & (A & B & C & D) & K). rewrite place_under. unfold under. rewrite E, fold_left_app. cbn [fold_left].
  rewrite push_plain by (try (split; auto); auto). cbn [rev]. eauto.
Qed.
Lemma with_extension_ends l x : Forall ending l -> In ".json" l -> exists e, ending e /\ has_suffix e (with_extension l x) = true.
Proof.
  intros F I. unfold with_extension. destruct (existsb _ l) eqn:E.
  - apply existsb_exists in E as (e & J & S). exists e. rewrite Forall_forall in F. auto.
  - exists ".json". split; [now left|]. apply suffix_app.
Qed.
Lemma output_named base o q : ~ is_azure o -> output_place base o q -> exists p k, q = (p ++ [k])%list /\ document_name k.
Proof.
  intros NA P. unfold output_place in P. destruct (out_generate o) as [|x|x|d|a] eqn:G; try easy.
  - destruct (with_extension_ends [".json"; ".yaml"; ".yml"] x) as (e & EE & S); [repeat constructor; unfold ending; tauto|now left|].
    destruct (place_named base _ e EE S) as (p & k & E & K). exists p, k. split; [congruence|]. now exists e.
  - destruct (with_extension_ends [".json"] x) as (e & EE & S); [repeat constructor; unfold ending; tauto|now left|].
    destruct (place_named base _ e EE S) as (p & k & E & K). exists p, k. split; [congruence|]. now exists e.
  - destruct NA. now exists d.
Qed.
Lemma suffix_last e c k : has_suffix (e ++ str1 c) k = true -> exists a, k = a ++ str1 c.
Proof. intros H. apply has_suffix_spec in H as (a & ->). exists (a ++ e). now rewrite append_assoc. Qed.
Lemma name_not_source k : document_name k -> is_go k = false /\ is_mod k = false /\ k <> ".astra".
Proof.
  intros (e & E & S).
  assert (X : exists a c, k = a ++ str1 c /\ c <> "o"%char /\ c <> "d"%char /\ c <> "a"%char).
  { destruct E as [->|[->| ->]]; [apply (suffix_last ".jso" "n") in S as (a & ->)|apply (suffix_last ".yam" "l") in S as (a & ->)|apply (suffix_last ".ym" "l") in S as (a & ->)];
      eexists a, _; (split; [reflexivity|]); repeat split; discriminate. }
  destruct X as (a & c & -> & N1 & N2 & N3). repeat split.
  - destruct (is_go _) eqn:G; auto. apply (suffix_last ".g" "o") in G as (b & G). apply snoc_inj in G as (_ & G). congruence.
  - destruct (is_mod _) eqn:G; auto. apply (suffix_last ".mo" "d") in G as (b & G). apply snoc_inj in G as (_ & G). congruence.
  - intros G. change ".astra" with (".astr" ++ str1 "a") in G. apply snoc_inj in G as (_ & G). congruence.
Qed.

Definition named_docs (D : list string -> Prop) : Prop := forall q, D q -> exists p k, q = (p ++ [k])%list /\ document_name k.
Lemma named_astra base D : named_docs D -> ~ D (base ++ [".astra"])%list.
Proof.
  intros N H. apply N in H as (p & k & E & K). apply app_inj_tail in E as (_ & <-). now apply name_not_source in K.
Qed.
Lemma named_sources base D : named_docs D -> no_sources base D.
Proof.
  intros N f H. apply N in H as (p & k & E & K). apply app_inj_tail in E as (_ & <-). apply name_not_source in K. tauto.
Qed.

Lemma steady_mono base (D D' : list string -> Prop) R K t : (forall q, D q -> D' q) -> steady base D R K t -> steady base D' R K t.
Proof.
  intros H (A & B & C & E & F). split; auto. split; auto. split; [|auto].
  intros q N. destruct (C q N) as [|(X & Y)]; [now left|right; auto].
Qed.

Section Left.
  Context (base : list string) (K : list string -> option (kind content)) (K_base : K base = Some KDir).
  Context (cwd : list string) (cwd_plain : Forall plain_name cwd).
  Context (D : list string -> Prop) (named : named_docs D).
  Context (env : Env) (s0 : Service).
  Context (B0 : locate cwd (sv_workDir s0) = base) (C0 : sv_cacheEnabled s0 = true -> sv_cachePath s0 = "").
  Context (NA : Forall (fun o => ~ is_azure o) (sv_outputs s0)) (DO : forall q, document_place base s0 q -> D q).
  Definition start_dirs (s : Service) : Prop :=
    locate cwd (sv_workDir s) = base /\ sv_cachePath s = sv_cachePath s0 /\ sv_cacheEnabled s = sv_cacheEnabled s0.
  Definition later_dirs (s : Service) : Prop := start_dirs s /\ sv_workDir s <> "".
  Let DA : ~ D (base ++ [".astra"])%list := named_astra base D named.
  Notation Inv := (steady base D True K).
  Notation ok := (preserves (moments cwd later_dirs Inv)).

  Lemma left_setup s w : start_dirs s -> preserves (moments cwd start_dirs Inv) (setupDirs env) s w.
  Proof.
    intros DS. unfold setupDirs. mstep; [apply c_setupAstraDir; auto; apply DS|].
    mstep. destruct (String.eqb _ _) eqn:WD; [|mstep]. apply String.eqb_eq in WD.
    apply m_intro. intros C (S & _) _. rewrite WD, locate_empty in S. mstep; [mstep|].
    apply m_modify. intros (_ & S'). split; [|exact S']. unfold with_workDir. cbn [sv_workDir].
    match goal with E : os_Getwd _ _ _ = _ |- _ => revert E end. unfold os_Getwd.
    destruct (e_fault _ _); [discriminate|]. intros X. match type of X with (Ok ?d, _, _) = (Ok ?a, _, _) => assert (a = d) as -> by congruence end.
    rewrite locate_cwd, C; auto. now rewrite C.
  Qed.
  Lemma later_base s : later_dirs s -> locate cwd (sv_workDir s) = base.
  Proof. intros ((A & _) & _). exact A. Qed.

  Lemma left_caching : Forall (fun ea => forall s w, ok (snd ea) s w) (caching env s0).
  Proof.
    unfold caching. destruct (sv_cacheEnabled s0) eqn:CE; constructor; [|constructor]. intros s w. cbn [snd].
    apply m_intro. intros _ ((A & B & C) & _) _. apply c_cache; auto. rewrite B. auto.
  Qed.
  Lemma left_later : Forall (fun ea => forall s w, ok (snd ea) s w) (tl (setup_steps env s0) ++ complete_steps env s0).
  Proof.
    assert (C := left_caching). assert (N : forall s w, ok (aret tt) s w) by (intros; mstep). assert (LB := later_base).
    unfold setup_steps, complete_steps. cbn [tl].
    repeat match goal with
           | |- Forall _ (_ ++ _) => apply Forall_app; split
           | |- Forall _ (_ :: _) => constructor
           | |- Forall _ [] => constructor
           | _ => assumption
           end.
    - apply Forall_map_in. intros i _ s w. apply c_runCreate. auto.
    - apply Forall_map_in. intros i _ s w. apply c_runParse; auto.
    - intros s w. apply c_cleanTypes; auto.
    - apply Forall_map_in. intros i I s w. assert (J : In (snd i) (sv_outputs s0)) by (eapply numbered_in; eauto).
      apply c_runGenerate; auto.
      + intros (_ & X). exact X.
      + rewrite Forall_forall in NA. auto.
      + intros q Q. right. apply DO. now exists (snd i).
    - intros s w. apply c_cleanUp; auto.
  Qed.

  Lemma left_parse w r s' w' :
    w_cwd w = cwd -> Inv (w_fs w) ->
    Parse env s0 w = (r, s', w') \/ (sv_workDir s0 <> "" /\ CompleteParse env s0 w = (r, s', w')) ->
    forall t, came_up w w' t -> Inv t.
  Proof.
    intros CW U0 E.
    assert (G : Inv (w_fs w') /\ exists new, w_past w' = (new ++ w_past w)%list /\ Forall Inv new).
    { assert (Z : sv_inputs s0 = [] \/ sv_outputs s0 = [] \/ (sv_inputs s0 <> [] /\ sv_outputs s0 <> [])).
      { destruct (sv_inputs s0); auto. destruct (sv_outputs s0); auto. right. right. split; discriminate. }
      destruct Z as [Z|[Z|(A & B)]].
      1,2: assert (X : s' = s0 /\ w' = w)
        by (destruct E as [E|(_ & E)];
            [unfold Parse, SetupParse in E; unfold abind at 1 2 in E|unfold CompleteParse in E; unfold abind at 1 in E]; unfold checkIO, abind, service in E;
            rewrite ?Z in E; try (destruct (sv_inputs s0)); injection E as <- <- <-; auto);
        destruct X as (-> & ->); split; [exact U0|exists []; auto].
      assert (LO := left_later).
      destruct E as [E|(WD & E)].
      - destruct (parse_run_is env s0 w A B) as (es & r2 & s2 & w2 & E2 & H).
        rewrite E in E2. injection E2 as <- <- <-.
        change (setup_steps env s0) with ((EvSetup, setupDirs env) :: tl (setup_steps env s0)) in H.
        assert (S0 : start_dirs s0) by (repeat split; auto).
        assert (R := left_setup s0 (noted EvSetup w) S0). unfold preserves, after_service, after_world in R.
        cbn [app] in H. inversion H as [|e a l ? ? s1 w1 es1 ? ? ? E1 H1|e a l ? ? ? ? ? E1 N1]; subst.
        + rewrite E1 in R. cbn [fst snd] in R. destruct (R CW S0 U0) as (C1 & S1 & U1 & n1 & P1 & F1).
          assert (R2 := run_steps_moments _ later_dirs Inv _ _ _ _ _ _ _ LO H1).
          destruct (R2 C1) as (C2 & S2 & U2 & n2 & P2 & F2); [split; [exact S1|eapply setup_has_dir; eauto]|exact U1|].
          split; [exact U2|]. exists (n2 ++ n1)%list. split; [rewrite P2, P1; now rewrite <- app_assoc|]. apply Forall_app. auto.
        + rewrite E1 in R. cbn [fst snd] in R. destruct (R CW S0 U0) as (C1 & S1 & U1 & n1 & P1 & F1).
          split; [exact U1|]. exists n1. auto.
      - destruct (completeParse_is env s0 s0 w (outputs_kept_refl s0) A B) as (es & r2 & s2 & w2 & E2 & H).
        rewrite E in E2. injection E2 as <- <- <-. apply Forall_app in LO as (_ & LO).
        assert (R2 := run_steps_moments _ _ _ _ _ _ _ _ _ _ LO H).
        destruct (R2 CW) as (C2 & S2 & U2 & X); [split; [repeat split; auto|exact WD]|exact U0|]. auto. }
    destruct G as (UW & new & P & F). intros t [->|(new' & P' & I)]; auto.
    rewrite P in P'. apply app_inv_tail in P' as <-. rewrite Forall_forall in F. auto.
  Qed.
End Left.

Lemma tried_steady base t0 D t :
  sorted_tree t0 -> plain_tree t0 -> kind_at base t0 = Some KDir -> tried base t0 D t ->
  named_docs D /\ steady base D True (fun q => kind_at q t0) t.
Proof.
  intros SO PT KB H. induction H as [|docs env s w r s' w' t H (ND & ST) CP (WD & CC & NA) E U].
  - split; [easy|]. split; auto. split; auto. split; [intros; now left|]. split; eauto.
  - set (D' := fun q => docs q \/ document_place base s q).
    assert (ND' : named_docs D').
    { intros q [Q|(o & I & P)]; [now apply ND|]. rewrite Forall_forall in NA. eapply output_named; eauto. }
    split; auto. refine (left_parse base _ KB (w_cwd w) CP D' ND' env s WD CC NA _ w r s' w' eq_refl _ E t U).
    + intros q Q. now right.
    + eapply steady_mono; [|exact ST]. intros q Q. now left.
Qed.

Lemma parse_mkdir env s w s' w' : Parse env s w = (Ok tt, s', w') -> exists t, mkdir_all (locate (w_cwd w) (getAstraDirPath s)) (w_fs w) = Some t.
Proof.
  intros E. unfold Parse, SetupParse in E. apply bind_ok in E as (? & s1 & w1 & E & _). apply bind_ok in E as (? & s2 & w2 & E0 & E).
  assert (s2 = s /\ w2 = w) as (-> & ->).
  { unfold checkIO, abind, service in E0. destruct (sv_inputs s); [discriminate|]. destruct (sv_outputs s); [discriminate|]. injection E0 as _ <- <-. auto. }
  clear E0. apply bind_ok in E as (? & s3 & w3 & E & _). unfold Setup in E. apply bind_ok in E as (? & s4 & w4 & E1 & E). injection E1 as _ <- <-.
  apply bind_ok in E as (? & s5 & w5 & E & _). unfold setupDirs in E. apply bind_ok in E as (? & s6 & w6 & E & _).
  unfold setupAstraDir in E. unfold abind at 1, service in E. apply bind_ok in E as (? & s7 & w7 & E & _).
  destruct x5. apply call_ok in E as (_ & _ & M). eauto.
Qed.

(** A later run does what it would have done before. *)
Lemma tried_later base w0 D w1 env s s0' w0' :
  sane w0 -> sorted_tree (w_fs w0) -> kind_at base (w_fs w0) = Some KDir ->
  tried base (w_fs w0) D (w_fs w1) -> w_cwd w1 = w_cwd w0 -> w_names w1 = w_names w0 ->
  ordinary base s w0 -> (forall q, document_place base s q -> ~ inside (base ++ [".astra"]) q) ->
  (forall n, e_fault env n = None) ->
  Parse env s w0 = (Ok tt, s0', w0') ->
  exists s1' w1', Parse env s w1 = (Ok tt, s1', w1') /\
    forall q, ~ inside (base ++ [".astra"]) q ->
      same_or_document (kind_at q (w_fs w0')) (kind_at q (w_fs w1')) (D q /\ ~ document_place base s q).
Proof.
  intros (CP & PT) SO KB T CW NM (WD & CC & NA) OUT NF E.
  destruct (tried_steady _ _ _ _ SO PT KB T) as (ND & ST).
  assert (KB1 := steady_base _ _ _ _ KB _ ST). destruct ST as (SO1 & PT1 & O1 & F1 & _).
  assert (FR : forall c, kind_at (base ++ [".astra"]) (w_fs w0) <> Some (KFile c)).
  { intros c KA. destruct (parse_mkdir _ _ _ _ _ E) as (t & M). rewrite (astra_at (w_cwd w0) base s WD) in M.
    rewrite (mkdir_all_none _ _ _ c (is_prefix_refl _) KA) in M. discriminate. }
  assert (FA : Forall (one_place base) (sv_outputs s)).
  { rewrite Forall_forall in *. intros o I. split; auto. intros q Q. apply OUT. now exists o. }
  destruct (sim_Parse (w_cwd w0) base CP env env NF eq_refl eq_refl eq_refl eq_refl D (sv_outputs s)
    (named_sources base D ND) FA s w0 s w1) with (2 := E) as (s1' & w1' & E1 & DN).
  { split; [repeat split; auto|]. split; [split; auto|]. split; [split; auto|].
    split; [split; [repeat split; auto|split; [auto|split; reflexivity]]|]. split.
    - split; [repeat split; auto|]. split; [repeat split; auto|]. split; auto.
      intros q N. destruct (O1 q N) as [->|(X & Y & Z)]; [now left|right; auto].
    - intros c KA. apply F1 in KA as (c' & KA). now apply FR in KA. }
  exists s1', w1'. split; auto. destruct DN as (_ & _ & _ & AL). intros q N.
  destruct (AL q N) as [|((X & X') & Y)]; [now left|right]. split; auto. split; auto. intros (o & I & P). exact (X' o I P).
Qed.
