(** Simulation of a run by another one of the same work. *)
From Coq Require Import List String Ascii Bool ZArith Arith Lia Sorting.Sorted.
From Verif Require Import BaseStr BaseMap M_Types M_Collect M_OpenAPI M_Parse M_Clean M_FS M_Service.
From Verif Require Import S_Service S_Cache S_Files P_FS P_Path P_Act P_Order P_Frame P_Azure P_Cache P_Load P_Main P_Chain P_Twice.
Import ListNotations.
Local Open Scope string_scope.

Definition custom_of (s : Service) : list (string * TypeFormat) :=
  match sv_memo s with Some c => c | None => sv_customTypes s end.
(** What the work of two services shares. *)
Definition same_work (sA sB : Service) : Prop :=
  sv_config sA = sv_config sB /\ sv_routes sA = sv_routes sB /\ sv_components sA = sv_components sB /\
  sv_tempMain sA = sv_tempMain sB /\ sv_customFuncs sA = sv_customFuncs sB /\ custom_of sA = custom_of sB.
Definition plan (s : Service) : list Input * list Output * list (string -> bool) := (sv_inputs s, sv_outputs s, sv_denyList s).

(** Copying reads every .mod file. *)
Lemma copyMain_reads env wd nm B files : forall pkg s w r s' w',
  locate (w_cwd w) wd = B -> locate (w_cwd w) nm = (B ++ [".astra"; "astramain"])%list -> Forall plain_name files ->
  copyMain env wd nm files pkg s w = (Ok r, s', w') ->
  forall f, In f files -> is_mod f = true -> exists c, kind_at (B ++ [f]) (w_fs w) = Some (KFile c).
Proof.
  induction files as [|x files IH]; intros pkg s w r s' w' LB LD F E f I M; [easy|]. cbn [copyMain] in E.
  apply Forall_cons_iff in F as (PX & F).
  assert (LX : locate (w_cwd w) (path_Join [wd; x]) = (B ++ [x])%list) by (rewrite locate_join_plain by auto; now rewrite LB).
  assert (LY : locate (w_cwd w) (path_Join [nm; x]) = (B ++ [".astra"; "astramain"; x])%list).
  { rewrite locate_join_plain by auto. now rewrite LD, <- app_assoc. }
  fold (is_go x) in E. fold (is_mod x) in E. destruct (is_go x) eqn:G; [|destruct (is_mod x) eqn:MX].
  - apply bind_ok in E as (c & s1 & w1 & E1 & E). apply readfile_ok in E1 as (-> & -> & K1).
    apply bind_ok in E as ([] & s2 & w2 & E2 & E). apply writefile_ok in E2 as (-> & C2 & _ & K2).
    cbn [w_cwd tick w_fs] in *. rewrite LY in K2.
    destruct I as [<-|I]; [apply mod_not_go in M; congruence|].
    destruct (IH pkg s w2 r s' w') with (f := f) as (c' & K'); auto; try (rewrite C2; auto).
    rewrite K2, inside_not in K'. eauto.
  - apply bind_ok in E as (c & s1 & w1 & E1 & E). apply readfile_ok in E1 as (-> & -> & K1). rewrite LX in K1.
    destruct I as [<-|I]; [eauto|]. eapply (IH _ s (tick (w_fs w) w)); eauto.
  - destruct I as [<-|I]; [congruence|]. eapply (IH _ s w); eauto.
Qed.

Lemma setupMain_reads env s w s' w' :
  sane w -> setupTempMainPackage env s w = (Ok tt, s', w') ->
  forall f, is_mod f = true -> kind_at (work_dir s w ++ [f]) (w_fs w) <> None -> exists c, kind_at (work_dir s w ++ [f]) (w_fs w) = Some (KFile c).
Proof.
  intros (SC & ST) E f MF KF. set (B := work_dir s w) in *. set (D := (B ++ [".astra"; "astramain"])%list).
  unfold setupTempMainPackage in E. unfold abind at 1, service in E.
  assert (LD : forall w1, w_cwd w1 = w_cwd w -> locate (w_cwd w1) (path_Join [getAstraDirPath s; mainPackageReplacement]) = D).
  { intros x C. rewrite C. apply main_place. }
  assert (NP : forall g, is_prefix D (B ++ [g]) = false).
  { intros g. unfold D. rewrite prefix_same_app. cbn. now rewrite andb_false_r. }
  apply bind_ok in E as (st & s1 & w1 & E1 & E). apply stat_same in E1 as (-> & ->).
  apply bind_ok in E as ([] & s2 & w2 & E2 & E).
  assert (X2 : s2 = s /\ w_cwd w2 = w_cwd w /\ (forall q, is_prefix D q = false -> kind_at q (w_fs w2) = kind_at q (w_fs w))).
  { destruct st; try (injection E2 as <- <-; auto). apply removeall_ok in E2 as (-> & C & X). cbn [w_cwd tick w_fs] in *.
    split; auto. split; auto.
    intros q Q. destruct X as [(_ & ->)|(_ & X)]; auto. rewrite X, (LD w eq_refl), Q. reflexivity. }
  destruct X2 as (-> & C2 & K2).
  apply bind_ok in E as ([] & s3 & w3 & E3 & E). apply call_ok in E3 as (-> & C3 & M). rewrite (LD w2 C2) in M.
  apply mkdir_spec in M as (_ & K3).
  apply bind_ok in E as (files & s4 & w4 & E4 & E).
  assert (KB : forall g, kind_at (B ++ [g]) (w_fs w3) = kind_at (B ++ [g]) (w_fs w)) by (intros g; now rewrite K3, NP, K2).
  assert (X4 : s4 = s /\ w4 = tick (w_fs w3) w3 /\ forall g, In g files <-> kind_at (B ++ [g]) (w_fs w) <> None).
  { unfold os_ReadDir in E4. destruct (e_fault env (w_clock w3)); [discriminate|]. destruct (String.eqb _ _); [discriminate|].
    replace (locate (w_cwd w3) (sv_workDir s)) with B in E4 by (unfold B, work_dir; congruence).
    destruct (get B (w_fs w3)) as [[|es']|] eqn:G; try discriminate. injection E4 as <- <- <-. split; auto. split; auto.
    intros g. now rewrite (names_spec _ _ _ _ G), KB. }
  destruct X4 as (-> & -> & NM).
  apply bind_ok in E as (p & s5 & w5 & E5 & _).
  assert (Z := copyMain_reads env (sv_workDir s) (path_Join [getAstraDirPath s; mainPackageReplacement]) B files "" s (tick (w_fs w3) w3) p s5 w5).
  cbn [w_cwd w_fs tick] in Z. destruct Z with (f := f) as (c & KC); [| | |exact E5|now apply NM|exact MF|rewrite KB in KC; eauto].
  - unfold B, work_dir. congruence.
  - apply LD. congruence.
  - apply Forall_forall. intros g I. apply NM, ST in I. apply Forall_app in I as (_ & I). now apply Forall_cons_iff in I.
Qed.

(** The last .mod file of a directory, if it has one. *)
Lemma last_mod B (t : tree content) : sorted_tree t -> kind_at B t = Some KDir ->
  (forall f, is_mod f = true -> kind_at (B ++ [f]) t = None) \/
  exists f, is_mod f = true /\ kind_at (B ++ [f]) t <> None /\
    forall g, is_mod g = true -> kind_at (B ++ [g]) t <> None -> g = f \/ sorted_tree t /\ str_lt g f.
Proof.
  intros S KB. unfold kind_at in KB. destruct (get B t) as [[|es]|] eqn:G; try discriminate.
  assert (NM : forall f, In f (map fst es) <-> kind_at (B ++ [f]) t <> None) by (intros f; exact (names_spec _ _ _ _ G)).
  assert (SS := sorted_get _ _ _ S G). apply sorted_tree_dir in SS as (SS & _). unfold msorted, mkeys in SS.
  assert (X : (forall f, In f (map fst es) -> is_mod f = false) \/
    exists f, In f (map fst es) /\ is_mod f = true /\ forall g, In g (map fst es) -> is_mod g = true -> g = f \/ str_lt g f).
  { clear NM G. induction (map fst es) as [|x l IH]; [left; easy|]. inversion SS as [|? ? S1 S2]; subst.
    destruct (IH S1) as [N|(f & I & M & U)].
    - destruct (is_mod x) eqn:MX.
      + right. exists x. split; [now left|]. split; auto. intros g [->|Ig] Mg; auto. rewrite N in Mg; [discriminate|auto].
      + left. intros f [<-|I]; auto.
    - right. exists f. split; [now right|]. split; auto. intros g [->|Ig] Mg; auto. right. rewrite Forall_forall in S2. auto. }
  destruct X as [N|(f & I & M & U)].
  - left. intros f M. destruct (kind_at (B ++ [f]) t) eqn:E; auto. assert (J : In f (map fst es)) by (apply NM; congruence).
    rewrite N in M; [discriminate|auto].
  - right. exists f. split; auto. split; [now apply NM|]. intros g Mg Kg. destruct (U g) as [|]; auto. now apply NM.
Qed.

Lemma root_file (b : list string) (c : content) : kind_at b (File c) <> Some KDir.
Proof. destruct b; cbn; discriminate. Qed.
Definition plan_rel := (list Input * list Output * list (string -> bool)) -> (list Input * list Output * list (string -> bool)) -> Prop.

Section Sim.
  Context (cwd base : list string) (cwd_plain : Forall plain_name cwd).
  Let astra := (base ++ [".astra"])%list.
  Context (eA eB : Env) (NF : forall n, e_fault eB n = None).
  Context (E_rel : e_rel eA = e_rel eB) (E_main : e_usesMain eA = e_usesMain eB) (E_an : e_analyse eA = e_analyse eB) (E_or : e_orders eA = e_orders eB).
  Notation home := (home cwd base).
  Notation dirs := (dirs cwd base).
  Notation dirs0 := (dirs0 cwd base).

  (** The trees agree outside the directory of astra, but for documents, which are no directories. *)
  Definition alike (D : list string -> Prop) (tA tB : tree content) : Prop :=
    forall q, ~ inside astra q -> same_or_document (kind_at q tA) (kind_at q tB) (D q).
  Definition worlds (D : list string -> Prop) (wA wB : World) : Prop :=
    home wA /\ home wB /\ w_names wA = w_names wB /\ alike D (w_fs wA) (w_fs wB).
  Definition no_sources (D : list string -> Prop) : Prop := forall f, D (base ++ [f])%list -> is_go f = false /\ is_mod f = false.

  Lemma worlds_quiet D RA RB wA wB wA' wB' :
    worlds D wA wB -> quiet base RA wA wA' -> quiet base RB wB wB' -> worlds D wA' wB'.
  Proof.
    intros (HA & HB & N & O) QA QB. split; [exact (quiet_home _ _ _ _ _ HA QA)|]. split; [exact (quiet_home _ _ _ _ _ HB QB)|].
    split; [destruct QA as (_ & -> & _), QB as (_ & -> & _); auto|].
    intros q NI. rewrite (quiet_outside _ _ _ _ QA q NI), (quiet_outside _ _ _ _ QB q NI). auto.
  Qed.
  Lemma quiet_same R w : home w -> quiet base R w w.
  Proof. intros H. split; auto. split; auto. now apply (steady_start cwd). Qed.
  Lemma quiet_noted R e w w' : quiet base R (noted e w) w' -> quiet base R w w'.
  Proof. exact (fun H => H). Qed.
  Lemma quiet_tick R w : home w -> quiet base R w (tick (w_fs w) w).
  Proof. exact (quiet_same R w). Qed.

  Definition Rel (X : plan_rel) (D : list string -> Prop) : srel :=
    fun sA wA sB wB => same_work sA sB /\ dirs sA /\ dirs sB /\ X (plan sA) (plan sB) /\
      worlds D wA wB /\ kind_at astra (w_fs wB) = Some KDir.

  Lemma sim_log (X : plan_rel) D e : sim (Rel X D) (Rel X D) (log e) (log e).
  Proof. intros sA wA sB wB H x sA' wA' [= <- <- <-]. exists sB, (noted e wB). split; [reflexivity|]. exact H. Qed.

  Lemma sim_cache (X : plan_rel) D : sim (Rel X D) (Rel X D) (cacheIfEnabled eA) (cacheIfEnabled eB).
  Proof.
    intros sA wA sB wB (SW & DA & DB & HX & W & RD) [] sA' wA' E.
    assert (QA : sA' = sA /\ quiet base False wA wA').
    { unfold cacheIfEnabled in E. unfold abind at 1, service in E. destruct (sv_cacheEnabled sA) eqn:CE.
      - apply bind_ok in E as (u & s1 & w1 & E1 & E). unfold log in E1. injection E1 as <- <- <-. fold (noted EvCache wA) in E.
        split; [now apply cache_same_service in E|]. apply (quiet_noted False EvCache).
        apply (q_cache cwd base cwd_plain eA sA _ _ _ _ E); auto; [apply W|]. apply DA. exact CE.
      - unfold aret in E. injection E as <- <-. split; auto. apply quiet_same. apply W. }
    destruct QA as (-> & QA).
    assert (QB : exists wB', cacheIfEnabled eB sB wB = (Ok tt, sB, wB') /\ quiet base False wB wB').
    { unfold cacheIfEnabled. unfold abind at 1, service. destruct (sv_cacheEnabled sB) eqn:CE.
      - destruct (cache_works cwd base eB NF sB (noted EvCache wB)) as (w' & C); auto; [apply W|apply DB; exact CE|].
        exists w'. split; [unfold abind, log; exact C|]. apply (quiet_noted False EvCache).
        apply (q_cache cwd base cwd_plain eB sB _ _ _ _ C); auto; [apply W|]. apply DB. exact CE.
      - exists wB. split; [reflexivity|]. apply quiet_same. apply W. }
    destruct QB as (wB' & EB & QB). exists sB, wB'. split; auto.
    split; auto. split; auto. split; auto. split; auto. split; [eapply worlds_quiet; eauto|]. eapply quiet_ready; eauto.
  Qed.

  Lemma mod_outside f : is_go f = true \/ is_mod f = true -> ~ inside astra (base ++ [f]).
  Proof.
    intros H (r & E). unfold astra in E. rewrite <- app_assoc in E. apply app_inv_head in E. injection E as -> E.
    destruct H; discriminate.
  Qed.
  Lemma source_same D wA wB f : no_sources D -> worlds D wA wB -> is_go f = true \/ is_mod f = true ->
    kind_at (base ++ [f]) (w_fs wA) = kind_at (base ++ [f]) (w_fs wB).
  Proof.
    intros ND (_ & _ & _ & O) H. destruct (O (base ++ [f])%list (mod_outside f H)) as [|(DF & _)]; auto.
    apply ND in DF as (G & M). destruct H; congruence.
  Qed.

  Lemma home_sane w : home w -> sane w.
  Proof. intros (C & _ & P & _). split; [rewrite C|]; auto. Qed.

  Lemma sim_getMain (X : plan_rel) D : no_sources D -> sim (Rel X D) (Rel X D) (GetMainPackageName eA) (GetMainPackageName eB).
  Proof.
    intros ND sA wA sB wB (SW & DA & DB & HX & W & RD) x sA' wA' E.
    assert (QA := q_getMain cwd base cwd_plain eA _ _ _ _ _ E (proj1 W) DA). destruct QA as (QA & DA').
    unfold GetMainPackageName in E. unfold abind at 1, service in E.
    apply bind_ok in E as ([] & s1 & w1 & E1 & E). unfold abind, service, aret in E. injection E as <- <- <-.
    assert (SW' := SW). destruct SW' as (S1 & S2 & S3 & S4 & S5 & S6).
    destruct (String.eqb (sv_tempMain sA) "") eqn:TM.
    - assert (HA := proj1 W). assert (HB := proj1 (proj2 W)).
      assert (WA : work_dir sA wA = base) by (unfold work_dir; destruct HA as (-> & _); apply DA).
      assert (WB : work_dir sB wB = base) by (unfold work_dir; destruct HB as (-> & _); apply DB).
      assert (OA := setupMain_ok eA sA wA s1 w1 (home_sane _ HA) E1). cbv zeta in OA. rewrite WA in OA.
      assert (RA := setupMain_reads eA sA wA s1 w1 (home_sane _ HA) E1). rewrite WA in RA.
      destruct OA as (A1 & A2 & A3 & A4 & A5 & A6 & A7 & A8 & _).
      destruct (setupMain_works eB sB wB NF (home_sane _ HB)) as (s2 & w2 & E2); [apply DB|rewrite WB; exact RD| |].
      { rewrite WB. intros f H K. rewrite <- (source_same D wA wB f ND W H) in K.
        destruct (is_go f) eqn:G.
        - destruct (A4 f) as (c & KC & _); congruence.
        - destruct H as [|M]; [congruence|]. destruct (RA f M) as (c & KC); congruence. }
      assert (OB := setupMain_ok eB sB wB s2 w2 (home_sane _ HB) E2). cbv zeta in OB. rewrite WB in OB.
      destruct OB as (B1 & B2 & B3 & B4 & B5 & B6 & B7 & B8 & _).
      assert (T : sv_tempMain s1 = sv_tempMain s2).
      { destruct HA as (HA1 & HA2 & HA3 & HA4). destruct HB as (HB1 & HB2 & HB3 & HB4).
        destruct (last_mod base (w_fs wA) HA2 HA4) as [N|(f & M & KF & U)].
        - rewrite A7 by auto. rewrite B7; auto. intros f M. rewrite <- (source_same D wA wB f) by auto. auto.
        - destruct (A8 f M KF U) as (c & KC & ->). destruct (B8 f M) as (c' & KC' & ->).
          + rewrite <- (source_same D wA wB f) by auto. auto.
          + intros g Mg Kg. rewrite <- (source_same D wA wB g) in Kg by auto. destruct (U g Mg Kg) as [|(_ & L)]; auto.
          + rewrite <- (source_same D wA wB f) in KC' by auto. congruence. }
      assert (EB : GetMainPackageName eB sB wB = (Ok (sv_tempMain s1), s2, w2)).
      { unfold GetMainPackageName. unfold abind at 1, service. rewrite <- S4, TM. unfold abind. rewrite E2, T. reflexivity. }
      exists s2, w2. split; auto. destruct (q_getMain cwd base cwd_plain eB _ _ _ _ _ EB HB DB) as (QB & DB').
      split; [|split; [|split; [|split; [|split]]]]; auto.
      + rewrite A1, B1. unfold same_work, custom_of in *. cbn. rewrite S1, S2, S3, S5, S6, T. auto 7.
      + rewrite A1, B1. exact HX.
      + eapply worlds_quiet; eauto.
      + eapply quiet_ready; eauto.
    - unfold aret in E1. injection E1 as <- <-. exists sB, wB. split.
      + unfold GetMainPackageName. unfold abind at 1, service. rewrite <- S4, TM. unfold abind, aret, service. now rewrite S4.
      + repeat (split; auto).
  Qed.

  Lemma rel_results (X : plan_rel) D r c sA wA sB wB :
    Rel X D sA wA sB wB -> Rel X D (with_results r c sA) wA (with_results r c sB) wB.
  Proof. intros ((S1 & S2 & S3 & S4 & S5 & S6) & DA & DB & HX & W). split; [repeat split; auto|]. split; [exact DA|]. split; [exact DB|]. split; [exact HX|exact W]. Qed.

  Lemma sim_cleanTypes (X : plan_rel) D : no_sources D -> sim (Rel X D) (Rel X D) (cleanTypes eA) (cleanTypes eB).
  Proof.
    intros ND. unfold cleanTypes. eapply sim_bind; [now apply sim_getMain|]. intros x. apply sim_modify.
    intros sA wA sB wB H. assert (SW := proj1 H). destruct SW as (_ & -> & -> & _). now apply rel_results.
  Qed.

  Lemma sim_runParse (X : plan_rel) D f : no_sources D -> sim (Rel X D) (Rel X D) (runParse eA f) (runParse eB f).
  Proof.
    intros ND. destruct f; cbn [runParse]; try apply sim_outcome.
    apply sim_service. intros a b.
    intros sA wA sB wB (H & -> & ->). revert a wA b wB H.
    change (sim (Rel X D) (Rel X D) (fun a wA => (_ <-- (if e_usesMain eA (sv_customFuncs a) (sv_routes a) then (_ <-- GetMainPackageName eA ;;; aret tt) else aret tt) ;;;
        s <-- service ;;;
        x <-- aoutcome (e_analyse eA (sv_customFuncs s) (sv_tempMain s) (sv_routes s) (sv_components s)) ;;;
        _ <-- modify (with_results (fst (fst x)) (snd (fst x))) ;;;
        aoutcome (match snd x with None => Ok tt | Some e => Err e end)) a wA)
      (fun a wA => (_ <-- (if e_usesMain eB (sv_customFuncs a) (sv_routes a) then (_ <-- GetMainPackageName eB ;;; aret tt) else aret tt) ;;;
        s <-- service ;;;
        x <-- aoutcome (e_analyse eB (sv_customFuncs s) (sv_tempMain s) (sv_routes s) (sv_components s)) ;;;
        _ <-- modify (with_results (fst (fst x)) (snd (fst x))) ;;;
        aoutcome (match snd x with None => Ok tt | Some e => Err e end)) a wA)).
    intros a wA b wB H. assert (SW := proj1 H). destruct SW as (_ & R2 & _ & _ & R5 & _). rewrite E_main, R2, R5. revert a wA b wB H R2 R5.
    assert (Z : forall u : bool, sim (Rel X D) (Rel X D)
      (_ <-- (if u then (_ <-- GetMainPackageName eA ;;; aret tt) else aret tt) ;;;
        s <-- service ;;;
        x <-- aoutcome (e_analyse eA (sv_customFuncs s) (sv_tempMain s) (sv_routes s) (sv_components s)) ;;;
        _ <-- modify (with_results (fst (fst x)) (snd (fst x))) ;;;
        aoutcome (match snd x with None => Ok tt | Some e => Err e end))
      (_ <-- (if u then (_ <-- GetMainPackageName eB ;;; aret tt) else aret tt) ;;;
        s <-- service ;;;
        x <-- aoutcome (e_analyse eB (sv_customFuncs s) (sv_tempMain s) (sv_routes s) (sv_components s)) ;;;
        _ <-- modify (with_results (fst (fst x)) (snd (fst x))) ;;;
        aoutcome (match snd x with None => Ok tt | Some e => Err e end))).
    { intros u. eapply sim_bind with (Q := Rel X D).
      - destruct u; [|apply sim_ret]. eapply sim_bind; [now apply sim_getMain|]. intros _. apply sim_ret.
      - intros _. apply sim_service. intros a b. intros sA wA sB wB (H & -> & ->).
        assert (SW := proj1 H). destruct SW as (_ & R2 & R3 & R4 & R5 & _). rewrite E_an, R2, R3, R4, R5. revert H.
        generalize (e_analyse eB (sv_customFuncs b) (sv_tempMain b) (sv_routes b) (sv_components b)). intros o H.
        revert a wA b wB H R2 R3 R4 R5.
        assert (Z : sim (Rel X D) (Rel X D)
          (x <-- aoutcome o ;;; _ <-- modify (with_results (fst (fst x)) (snd (fst x))) ;;; aoutcome (match snd x with None => Ok tt | Some e => Err e end))
          (x <-- aoutcome o ;;; _ <-- modify (with_results (fst (fst x)) (snd (fst x))) ;;; aoutcome (match snd x with None => Ok tt | Some e => Err e end))).
        { eapply sim_bind; [apply sim_outcome|]. intros x. apply sim_bind with (Q := Rel X D); [apply sim_modify; intros; now apply rel_results|].
          intros _. apply sim_outcome. }
        intros a wA b wB H _ _ _ _. apply Z. exact H. }
    intros a wA b wB H _ _. apply Z. exact H.
  Qed.

  Lemma sim_runParses (X : plan_rel) D l l' : no_sources D -> map in_parse l = map in_parse l' -> sim (Rel X D) (Rel X D) (runParses eA l) (runParses eB l').
  Proof.
    intros ND. revert l'. induction l as [|i l IH]; intros [|i' l']; cbn [map runParses]; intros E; try discriminate; [apply sim_ret|].
    injection E as E1 E2. apply sim_bind with (Q := Rel X D); [|intros _; apply sim_bind with (Q := Rel X D); [rewrite <- E1; now apply sim_runParse|intros _; now apply IH]].
    intros sA wA sB wB H x sA' wA' [= <- <- <-]. eexists sB, _. split; [reflexivity|]. exact H.
  Qed.

  Lemma sim_ParseRoutes (X : plan_rel) D : no_sources D ->
    (forall a b, X a b -> map in_parse (fst (fst a)) = map in_parse (fst (fst b))) -> sim (Rel X D) (Rel X D) (ParseRoutes eA) (ParseRoutes eB).
  Proof.
    intros ND HX. unfold ParseRoutes. eapply sim_bind; [apply sim_log|]. intros _. apply sim_service. intros a b.
    eapply sim_bind with (Q := Rel X D); [|intros _; apply sim_cache].
    intros sA wA sB wB (H & -> & ->). revert H. intros H. eapply sim_runParses; eauto. apply (HX (plan a) (plan b)). apply H.
  Qed.
  Lemma sim_Clean (X : plan_rel) D : no_sources D -> sim (Rel X D) (Rel X D) (Clean eA) (Clean eB).
  Proof.
    intros ND. unfold Clean. eapply sim_bind; [apply sim_log|]. intros _. eapply sim_bind; [now apply sim_cleanTypes|].
    intros _. apply sim_cache.
  Qed.

  (** *** Creating routes *)
  Lemma sim_getwd (X : plan_rel) D : sim (Rel X D) (Rel X D) (os_Getwd eA) (os_Getwd eB).
  Proof.
    intros sA wA sB wB (SW & DA & DB & HX & W & RD) x sA' wA' E. unfold os_Getwd in *. rewrite NF.
    destruct (e_fault eA _); [discriminate|]. injection E as <- <- <-.
    exists sB, (tick (w_fs wB) wB). assert (HA := proj1 W). assert (HB := proj1 (proj2 W)).
    split; [destruct HA as (-> & _), HB as (-> & _); reflexivity|].
    exact (conj SW (conj DA (conj DB (conj HX (conj W RD))))).
  Qed.
  Lemma sim_ginCreate (X : plan_rel) D l : (forall a b, X a b -> snd a = snd b) -> sim (Rel X D) (Rel X D) (ginCreateRoutes eA l) (ginCreateRoutes eB l).
  Proof.
    intros HX. induction l as [|i l IH]; cbn [ginCreateRoutes]; [apply sim_ret|].
    apply sim_service. intros a b sA wA sB wB (H & -> & ->).
    assert (Dn : sv_denyList a = sv_denyList b) by (apply (HX (plan a) (plan b)); apply H).
    assert (SW := proj1 H). destruct SW as (_ & R2 & R3 & _). rewrite Dn, R2, R3.
    destruct (denied (sv_denyList b) (gi_path i)); [now apply IH|]. revert H. generalize (sv_routes b), (sv_components b). intros r c H.
    assert (Z : sim (Rel X D) (Rel X D)
      (cwd <-- os_Getwd eA ;;; routes <-- aoutcome (createRoute (e_rel eA cwd) i r) ;;; _ <-- modify (with_results routes c) ;;; ginCreateRoutes eA l)
      (cwd <-- os_Getwd eB ;;; routes <-- aoutcome (createRoute (e_rel eB cwd) i r) ;;; _ <-- modify (with_results routes c) ;;; ginCreateRoutes eB l)).
    { eapply sim_bind; [apply sim_getwd|]. intros d. rewrite E_rel. eapply sim_bind; [apply sim_outcome|]. intros x.
      apply sim_bind with (Q := Rel X D); [apply sim_modify; intros; apply rel_results; assumption|]. intros _. exact IH. }
    apply Z. exact H.
  Qed.
  Lemma sim_runCreates (X : plan_rel) D l l' : (forall a b, X a b -> snd a = snd b) -> map in_create l = map in_create l' ->
    sim (Rel X D) (Rel X D) (runCreates eA l) (runCreates eB l').
  Proof.
    intros HX. revert l'. induction l as [|i l IH]; intros [|i' l']; cbn [map runCreates]; intros E; try discriminate; [apply sim_ret|].
    injection E as E1 E2. apply sim_bind with (Q := Rel X D); [|intros _; apply sim_bind with (Q := Rel X D); [rewrite <- E1|intros _; now apply IH]].
    - intros sA wA sB wB H x sA' wA' [= <- <- <-]. eexists sB, _. split; [reflexivity|]. exact H.
    - destruct (in_create i) as [|[r|]|]; cbn [runCreate]; try apply sim_outcome. now apply sim_ginCreate.
  Qed.
  Lemma sim_CreateRoutes (X : plan_rel) D : (forall a b, X a b -> map in_create (fst (fst a)) = map in_create (fst (fst b)) /\ snd a = snd b) ->
    sim (Rel X D) (Rel X D) (ServiceCreateRoutes eA) (ServiceCreateRoutes eB).
  Proof.
    intros HX. unfold ServiceCreateRoutes. eapply sim_bind; [apply sim_log|]. intros _. apply sim_service. intros a b.
    eapply sim_bind with (Q := Rel X D); [|intros _; apply sim_cache].
    intros sA wA sB wB (H & -> & ->). eapply sim_runCreates; eauto; [intros p q; apply HX|]. apply (HX (plan a) (plan b)). apply H.
  Qed.

  (** *** Generating *)
  Lemma rel_plan (X Y : plan_rel) D sA wA sB wB :
    (forall a b, X a b -> Y a b) -> Rel X D sA wA sB wB -> Rel Y D sA wA sB wB.
  Proof. intros H (A & B & C & Z & E). exact (conj A (conj B (conj C (conj (H _ _ Z) E)))). Qed.
  Definition any_plan : plan_rel := fun _ _ => True.

  (** Writing the same file at the same place. *)
  Lemma sim_write D l c pA pB :
    locate cwd pA = l -> locate cwd pB = l -> ~ inside astra l ->
    sim (Rel any_plan D) (Rel any_plan (fun q => D q /\ q <> l)) (os_WriteFile eA pA c) (os_WriteFile eB pB c).
  Proof.
    intros LA LB NI sA wA sB wB (SW & DA & DB & HX & W & RD) [] sA' wA' E.
    assert (W' := W). destruct W' as (HA & HB & N & O). assert (HA' := HA). assert (HB' := HB). destruct HA' as (CA & SA & PA & BA). destruct HB' as (CB & SB & PB & BB).
    assert (NA : l <> astra) by (intros ->; apply NI; exists []; now rewrite app_nil_r).
    assert (E' := E). apply writefile_ok in E' as (-> & CA' & ND & KA). rewrite CA, LA in *.
    assert (PAR : exists p k, l = (p ++ [k])%list /\ kind_at p (w_fs wA) = Some KDir).
    { unfold os_WriteFile, os_Create in E. apply bind_ok in E as ([] & s1 & w1 & E1 & E2). apply call_ok in E1 as (-> & C1 & C). rewrite CA, LA in C.
      destruct (split_last l) as [->|(p & k & ->)].
      - exfalso. apply create_spec in C as (X & _). unfold kind_at in X. cbn in X. destruct (w_fs wA); [|now apply X].
        exact (root_file _ _ BA).
      - exists p, k. split; auto. eapply create_parent; eauto. }
    destruct PAR as (p & k & EL & KP).
    assert (NP : ~ inside astra p) by (intros (r & ->); apply NI; exists (r ++ [k])%list; now rewrite EL, app_assoc).
    assert (KPB : kind_at p (w_fs wB) = Some KDir) by (destruct (O p NP) as [<-|(_ & X & _)]; congruence).
    assert (NDB : kind_at l (w_fs wB) <> Some KDir) by (destruct (O l NI) as [<-|(_ & _ & X)]; auto).
    destruct (writefile_works eB pB c sB wB p k) as (sB' & wB' & EB); auto; try (rewrite <- EL; auto). { now rewrite CB, LB. }
    exists sB', wB'. split; auto. assert (EB' := EB). apply writefile_ok in EB' as (-> & CB' & _ & KB). rewrite CB, LB in *.
    (* each is steady with the one place as document *)
    assert (ST : forall env pX s w w', os_WriteFile env pX c s w = (Ok tt, s, w') -> home w -> locate cwd pX = l ->
              steady base (fun q => q = l) False (fun q => kind_at q (w_fs w)) (w_fs w') /\ w_names w' = w_names w /\ w_cwd w' = w_cwd w).
    { intros env pX s w w' EX HX' LX. assert (M := c_writefile cwd (fun _ => True) cwd_plain base (fun q => q = l) False (fun q => kind_at q (w_fs w))
        (fun Z => NA (eq_sym Z)) env pX c s w (or_intror LX)).
      assert (P : preserves names_kept (os_WriteFile env pX c) s w) by (apply p_writefile; unfold names_kept; intros; cbn in *; congruence).
      unfold preserves, after_service, after_world, names_kept in M, P. rewrite EX in M, P. cbn [fst snd] in *.
      destruct (M (proj1 HX') I (steady_start cwd base _ False w HX')) as (CW & _ & S & _). split; auto. split; auto. destruct HX' as (-> & _). auto. }
    destruct (ST _ _ _ _ _ E HA LA) as (STA & NMA & _). destruct (ST _ _ _ _ _ EB HB LB) as (STB & NMB & _).
    split; auto. split; auto. split; auto. split; auto. split; [split; [|split; [|split]]|].
    - assert (BX := steady_base base _ _ _ BA _ STA). destruct STA as (X1 & X2 & _). split; [congruence|auto].
    - assert (BX := steady_base base _ _ _ BB _ STB). destruct STB as (X1 & X2 & _). split; [congruence|auto].
    - congruence.
    - intros q NQ. rewrite KA, KB. destruct (is_prefix l q) eqn:P1; [left; reflexivity|].
      destruct (O q NQ) as [->|(Z1 & Z2 & Z3)]; [now left|]. right. split; auto. split; auto. intros ->. now rewrite is_prefix_refl in P1.
    - destruct STB as (_ & _ & _ & _ & [[]|Z]). auto.
  Qed.

  Definition one_place (o : Output) : Prop := ~ is_azure o /\ forall q, output_place base o q -> ~ inside astra q.

  Lemma rel_outputs D oA oB sA wA sB wB : Rel any_plan D sA wA sB wB -> Rel any_plan D (with_outputs oA sA) wA (with_outputs oB sB) wB.
  Proof. intros (SW & DA & DB & _ & W). split; [exact SW|]. split; [exact DA|]. split; [exact DB|]. split; [exact I|exact W]. Qed.

  Lemma openapi_at s x : dirs s -> locate cwd (path_Join [sv_workDir s; openapiPath x]) = place base (with_extension [".json"; ".yaml"; ".yml"] x).
  Proof. intros ((E & _) & N). rewrite locate_join by (left; exact N). rewrite E, openapiPath_spec. symmetry. apply place_under. Qed.
  Lemma json_at s x : dirs s -> locate cwd (path_Join [sv_workDir s; jsonPath x]) = place base (with_extension [".json"] x).
  Proof. intros ((E & _) & N). rewrite locate_join by (left; exact N). rewrite E, jsonPath_spec. symmetry. apply place_under. Qed.

  Lemma sim_runGenerate D n n' o o' :
    out_generate o = out_generate o' -> one_place o ->
    sim (Rel any_plan D) (Rel any_plan (fun q => D q /\ ~ output_place base o q)) (runGenerate eA n o) (runGenerate eB n' o').
  Proof.
    intros EO (NZ & PL). unfold runGenerate. rewrite <- EO. unfold output_place in *. destruct (out_generate o) as [|x|x|d|a] eqn:GE.
    - intros sA wA sB wB _ y sA' wA' E. discriminate.
    - unfold generateOpenAPI. apply sim_service. intros a b sA wA sB wB (H & -> & ->) y sA' wA' E.
      assert (SW := proj1 H). destruct SW as (R1 & R2 & R3 & R4 & R5 & R6). fold (custom_of a) in E. fold (custom_of b).
      apply bind_ok in E as (z & s1 & w1 & E1 & E). 
      assert (NM : w_names wA = w_names wB) by apply H.
      assert (E1' : buildDocument (e_orders eB) (custom_of b) (sv_config b) (sv_routes b) (sv_components b) (w_names wB) = Ok z /\ s1 = a /\ w1 = wA).
      { injection E1 as E1 <- <-. rewrite E_or, R6, R1, R2, R3, NM in E1. auto. }
      destruct E1' as (BD & -> & ->). unfold abind at 1. rewrite BD.
      unfold abind at 1 in E. unfold abind at 1. cbv beta iota in *. unfold abind at 1, capture, modify in E. unfold abind at 1, capture, modify.
      refine (sim_write D _ _ _ _ _ _ _ _ _ _ _ _ y sA' wA' E).
      + apply openapi_at, H.
      + apply openapi_at, H.
      + now apply PL.
      + apply rel_outputs. destruct H as (_ & DA & DB & _ & (HA & HB & _ & O) & RD).
        split; [|split; [exact DA|split; [exact DB|split; [exact I|split; [|exact RD]]]]].
        * repeat split; auto.
        * split; [exact HA|]. split; [exact HB|]. split; [reflexivity|exact O].
    - unfold generateJSON. apply sim_service. intros a b sA wA sB wB (H & -> & ->) y sA' wA' E.
      assert (SW := proj1 H). destruct SW as (R1 & R2 & R3 & R4 & R5 & R6). rewrite R2, R3 in E.
      unfold abind at 1, capture, modify in E. unfold abind at 1, capture, modify.
      refine (sim_write D _ _ _ _ _ _ _ _ _ _ _ _ y sA' wA' E).
      + apply json_at, H.
      + apply json_at, H.
      + now apply PL.
      + now apply rel_outputs.
    - destruct NZ. now exists d.
    - eapply sim_post; [|apply sim_outcome]. intros sA wA sB wB (A & B & C & Z & (W1 & W2 & W3 & W4) & RD).
      split; auto. split; auto. split; auto. split; auto. split; auto. split; auto. split; auto. split; auto.
      intros q NQ. destruct (W4 q NQ) as [|(X1 & X2)]; [now left|]. right. auto.
  Qed.

  Lemma rel_docs (X : plan_rel) (D D' : list string -> Prop) sA wA sB wB : (forall q, D q -> D' q) -> Rel X D sA wA sB wB -> Rel X D' sA wA sB wB.
  Proof.
    intros H (A & B & C & Z & (W1 & W2 & W3 & W4) & RD). refine (conj A (conj B (conj C (conj Z (conj (conj W1 (conj W2 (conj W3 _))) RD))))).
    intros q NQ. destruct (W4 q NQ) as [|(X1 & X2)]; [now left|right; auto].
  Qed.
  Definition left_over (D : list string -> Prop) (l : list Output) : list string -> Prop :=
    fun q => D q /\ forall o, In o l -> ~ output_place base o q.
  Lemma sim_runGenerates l : forall D l' n n', map out_generate l = map out_generate l' -> Forall one_place l ->
    sim (Rel any_plan D) (Rel any_plan (left_over D l)) (runGenerates eA n l) (runGenerates eB n' l').
  Proof.
    induction l as [|o l IH]; intros D [|o' l'] n n' E F; try discriminate; cbn [runGenerates].
    - eapply sim_post; [|apply sim_ret]. intros sA wA sB wB. apply rel_docs. intros q H. split; auto.
    - cbn [map] in E. injection E as E1 E2. apply Forall_cons_iff in F as (F1 & F2).
      apply sim_bind with (Q := Rel any_plan D).
      { intros sA wA sB wB H x sA' wA' [= <- <- <-]. eexists sB, _. split; [reflexivity|]. exact H. }
      intros _. eapply sim_bind; [now apply sim_runGenerate|]. intros _.
      eapply sim_post; [|now apply IH]. intros sA wA sB wB. apply rel_docs. intros q ((H1 & H2) & H3). split; auto.
      intros o2 [<-|I]; auto.
  Qed.
  Definition documents (l : list Output) (a : list Input * list Output * list (string -> bool)) : Prop :=
    map out_generate (snd (fst a)) = map out_generate l.
  Lemma sim_Generate (X : plan_rel) D l :
    Forall one_place l -> (forall a b, X a b -> documents l a /\ documents l b) ->
    sim (Rel X D) (Rel any_plan (left_over D l)) (Generate eA) (Generate eB).
  Proof.
    intros F HX. unfold Generate. eapply sim_bind; [apply sim_log|]. intros _. apply sim_service. intros a b.
    eapply sim_bind; [|intros _; apply sim_cache].
    intros sA wA sB wB (H & -> & ->). destruct (HX (plan a) (plan b)) as (LA & LB); [apply H|]. unfold documents, plan in LA, LB. cbn in LA, LB.
    assert (LP : forall o o', out_generate o = out_generate o' -> (one_place o <-> one_place o') /\ (forall q, output_place base o q <-> output_place base o' q)).
    { intros o o' E. assert (Y : forall q, output_place base o q <-> output_place base o' q) by (intros q; unfold output_place; rewrite E; tauto).
      split; auto. unfold one_place, is_azure. rewrite E. split; intros (Y1 & Y2); split; auto; intros q Z; apply Y2, Y, Z. }
    assert (IN : forall l1 l2, map out_generate l1 = map out_generate l2 -> forall o, In o l1 -> exists o', In o' l2 /\ out_generate o = out_generate o').
    { intros l1 l2 E o I. apply (in_map out_generate) in I. rewrite E in I. apply in_map_iff in I as (o' & E' & I). eauto. }
    assert (FA : Forall one_place (sv_outputs a)).
    { rewrite Forall_forall in *. intros o I. destruct (IN _ _ LA o I) as (o' & I' & E). apply (LP _ _ E). auto. }
    assert (H' : Rel any_plan D a wA b wB) by (eapply rel_plan; [|exact H]; easy).
    intros x sA' wA' E. destruct (sim_runGenerates (sv_outputs a) D (sv_outputs b) 0 0 (eq_trans LA (eq_sym LB)) FA _ _ _ _ H' _ _ _ E) as (sB' & wB' & EB & R).
    exists sB', wB'. split; auto. eapply rel_docs; [|exact R]. intros q (H1 & H2). split; auto.
    intros o I P. destruct (IN _ _ (eq_sym LA) o I) as (o' & I' & E'). apply (H2 o' I'), (LP _ _ E'), P.
  Qed.

  Definition Done (D : list string -> Prop) : srel := fun _ wA _ wB => worlds D wA wB.
  Lemma sim_Teardown (X : plan_rel) D : sim (Rel X D) (Done D) (Teardown eA) (Teardown eB).
  Proof.
    unfold Teardown. eapply sim_bind; [apply sim_log|]. intros _ sA wA sB wB (SW & DA & DB & HX & W & RD) x sA' wA' E.
    destruct (cleanUp_works eB NF sB wB) as (sB' & wB' & EB). destruct x. exists sB', wB'. split; auto.
    destruct (q_cleanUp cwd base eA _ _ _ _ _ E (proj1 W) DA) as (QA & _).
    destruct (q_cleanUp cwd base eB _ _ _ _ _ EB (proj1 (proj2 W)) DB) as (QB & _).
    eapply worlds_quiet; eauto.
  Qed.

  Definition same_counts (a b : list Input * list Output * list (string -> bool)) : Prop :=
    (fst (fst a) = [] <-> fst (fst b) = []) /\ (snd (fst a) = [] <-> snd (fst b) = []).
  Lemma sim_checkIO (P : srel) : (forall sA wA sB wB, P sA wA sB wB -> same_counts (plan sA) (plan sB)) -> sim P P checkIO checkIO.
  Proof.
    intros H sA wA sB wB HP x sA' wA' E. apply H in HP as HC. unfold same_counts, plan in HC. cbn in HC. destruct HC as (C1 & C2).
    unfold checkIO, abind, service in *.
    destruct (sv_inputs sA) as [|iA lA]; [discriminate|]. destruct (sv_outputs sA) as [|oA mA]; [discriminate|].
    destruct (sv_inputs sB) as [|iB lB]; [now discriminate (proj2 C1)|]. destruct (sv_outputs sB) as [|oB mB]; [now discriminate (proj2 C2)|].
    injection E as <- <- <-. exists sB, wB. auto.
  Qed.

  (** *** The second half of a run *)
  Definition parse_alike (l : list Output) : plan_rel := fun a b =>
    map in_parse (fst (fst a)) = map in_parse (fst (fst b)) /\ documents l a /\ documents l b.
  Lemma map_nil {A B} (f g : A -> B) l l' : map f l = map g l' -> (l = [] <-> l' = []).
  Proof. destruct l, l'; cbn; try discriminate; intros _; split; easy. Qed.
  Lemma sim_CompleteParse D l :
    no_sources D -> Forall one_place l ->
    sim (Rel (parse_alike l) D) (Done (left_over D l)) (CompleteParse eA) (CompleteParse eB).
  Proof.
    intros ND F. unfold CompleteParse. apply sim_bind with (Q := Rel (parse_alike l) D).
    { apply sim_checkIO. intros sA wA sB wB (_ & _ & _ & (P1 & P2 & P3) & _). split; [exact (map_nil _ _ _ _ P1)|].
      unfold documents in *. apply (map_nil out_generate out_generate). congruence. }
    intros _. eapply sim_bind; [apply sim_ParseRoutes; auto; intros a b H; apply H|]. intros _.
    eapply sim_bind; [now apply sim_Clean|]. intros _.
    eapply sim_bind; [apply (sim_Generate _ D l); auto; intros a b H; split; apply H|]. intros _. apply sim_Teardown.
  Qed.

  (** *** The first half of a run *)
  Definition Start (X : plan_rel) (D : list string -> Prop) : srel := fun sA wA sB wB =>
    same_work sA sB /\ dirs0 sA /\ dirs0 sB /\ X (plan sA) (plan sB) /\ worlds D wA wB /\
    forall c, kind_at astra (w_fs wB) <> Some (KFile c).
  (** The rest of making the directories: the working directory gets a name. *)
  Definition nameDir (env : Env) : act unit :=
    s <-- service ;;; if String.eqb (sv_workDir s) "" then (cwd <-- os_Getwd env ;;; modify (with_workDir cwd)) else aret tt.
  Lemma nameDir_ok env s w s' w' : nameDir env s w = (Ok tt, s', w') -> home w -> dirs0 s ->
    dirs s' /\ w_fs w' = w_fs w /\ w_cwd w' = w_cwd w /\ w_names w' = w_names w /\ s' = with_workDir (sv_workDir s') s.
  Proof.
    intros E HW (B & C). unfold nameDir, abind, service in E. destruct (String.eqb (sv_workDir s) "") eqn:WD.
    - unfold os_Getwd in E. destruct (e_fault env _); [discriminate|]. unfold modify in E.
      match type of E with (_, with_workDir ?d _, _) = _ => set (dd := d) in E end.
      assert (s' = with_workDir dd s /\ w' = tick (w_fs w) w) as (-> & ->) by (split; congruence). clear E.
      split; [|repeat split; auto]. split; [split|].
      + change (locate cwd dd = base). unfold dd. destruct HW as (-> & _). rewrite locate_cwd by auto.
        apply String.eqb_eq in WD. now rewrite WD, locate_empty in B.
      + exact C.
      + cbn. unfold dd. discriminate.
    - unfold aret in E. injection E as <- <-. apply String.eqb_neq in WD. split; [split; auto; split; auto|]. repeat split; auto.
      destruct s; reflexivity.
  Qed.
  Lemma sim_setupDirs (X : plan_rel) D : sim (Start X D) (Rel X D) (setupDirs eA) (setupDirs eB).
  Proof.
    intros sA wA sB wB (SW & DA & DB & HX & W & RD) x sA' wA' E. unfold setupDirs in *. fold (nameDir eA) in E. fold (nameDir eB).
    apply bind_ok in E as ([] & s1 & w1 & E1 & E2). destruct x.
    destruct (q_setupAstra cwd base cwd_plain eA _ _ _ _ _ E1 (proj1 W) DA) as (QA & ->).
    destruct (setupAstra_works cwd base cwd_plain eB NF sB wB (proj1 (proj2 W)) DB RD) as (w2 & EB & KD).
    destruct (q_setupAstra cwd base cwd_plain eB _ _ _ _ _ EB (proj1 (proj2 W)) DB) as (QB & _).
    assert (W2 := worlds_quiet D _ _ _ _ _ _ W QA QB).
    assert (NB : exists sB' wB', nameDir eB sB w2 = (Ok tt, sB', wB')).
    { unfold nameDir, abind, service, os_Getwd, modify, aret. destruct (String.eqb _ _); [rewrite NF|]; eauto. }
    destruct NB as (sB' & wB' & EB2).
    destruct (nameDir_ok _ _ _ _ _ E2 (proj1 W2) DA) as (DA' & FA & CA & NA & SA).
    destruct (nameDir_ok _ _ _ _ _ EB2 (proj1 (proj2 W2)) DB) as (DB' & FB & CB & NB & SB).
    exists sB', wB'. split; [unfold abind at 1; rewrite EB; exact EB2|].
    rewrite SA in *. rewrite SB in *.
    split; [exact SW|]. split; [exact DA'|]. split; [exact DB'|]. split; [exact HX|]. split; [|now rewrite FB].
    destruct W2 as ((H1 & H2) & (H3 & H4) & N & O).
    split; [split; rewrite ?FA; [congruence|auto]|]. split; [split; rewrite ?FB; [congruence|auto]|]. split; [congruence|]. now rewrite FA, FB.
  Qed.
  Definition create_alike : plan_rel := fun a b =>
    map in_create (fst (fst a)) = map in_create (fst (fst b)) /\ snd a = snd b /\ (snd (fst a) = [] <-> snd (fst b) = []).
  Lemma sim_SetupParse (X : plan_rel) D :
    (forall a b, X a b -> create_alike a b) ->
    sim (Start X D) (Rel X D) (SetupParse eA) (SetupParse eB).
  Proof.
    intros HX. unfold SetupParse. apply sim_bind with (Q := Start X D).
    { apply sim_checkIO. intros sA wA sB wB (_ & _ & _ & P & _). apply HX in P as (P1 & P2 & P3). split; auto. exact (map_nil _ _ _ _ P1). }
    intros _. apply sim_bind with (Q := Rel X D).
    - unfold Setup. apply sim_bind with (Q := Start X D).
      { intros sA wA sB wB H x sA' wA' [= <- <- <-]. exists sB, (noted EvSetup wB). split; [reflexivity|]. exact H. }
      intros _. eapply sim_bind; [apply sim_setupDirs|]. intros _. apply sim_cache.
    - intros _. apply sim_CreateRoutes. intros a b H. apply HX in H as (H1 & H2 & H3). auto.
  Qed.

  (** *** The whole *)
  Definition alike_plans (l : list Output) : plan_rel := fun a b => create_alike a b /\ parse_alike l a b.
  Lemma sim_Parse D l : no_sources D -> Forall one_place l ->
    sim (Start (alike_plans l) D) (Done (left_over D l)) (Parse eA) (Parse eB).
  Proof.
    intros ND F. unfold Parse. eapply sim_bind; [apply sim_SetupParse; intros a b H; apply H|]. intros _.
    eapply sim_pre; [|now apply sim_CompleteParse]. intros sA wA sB wB. apply rel_plan. intros a b H. apply H.
  Qed.
End Sim.
