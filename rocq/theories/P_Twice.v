(** Two runs of the same work: what one could do, the other can, and leaves the same documents. *)
From Coq Require Import List String Ascii Bool ZArith Arith Lia Sorting.Sorted.
From Verif Require Import BaseStr BaseMap M_Types M_Collect M_OpenAPI M_Parse M_Clean M_FS M_Service.
From Verif Require Import S_Service S_Cache S_Files P_FS P_Path P_Act P_Order P_Frame P_Azure P_Cache P_Load P_Main P_Chain.
Import ListNotations.
Local Open Scope string_scope.

(** ** Simulation *)

Definition srel := Service -> World -> Service -> World -> Prop.
(** What the first can do from related states, the second can, with the same result and related states. *)
Definition sim (P Q : srel) {T} (a b : act T) : Prop :=
  forall sA wA sB wB, P sA wA sB wB -> forall x sA' wA', a sA wA = (Ok x, sA', wA') ->
  exists sB' wB', b sB wB = (Ok x, sB', wB') /\ Q sA' wA' sB' wB'.

Lemma sim_bind (P Q S : srel) {T U} (a b : act T) (f g : T -> act U) :
  sim P Q a b -> (forall x, sim Q S (f x) (g x)) -> sim P S (abind a f) (abind b g).
Proof.
  intros H1 H2 sA wA sB wB HP x sA' wA' E. apply bind_ok in E as (y & s1 & w1 & E1 & E2).
  destruct (H1 _ _ _ _ HP _ _ _ E1) as (s2 & w2 & E3 & HQ). destruct (H2 y _ _ _ _ HQ _ _ _ E2) as (s3 & w3 & E4 & HS).
  exists s3, w3. split; auto. unfold abind. now rewrite E3.
Qed.
Lemma sim_service (P Q : srel) {T} (f g : Service -> act T) :
  (forall s0 s1, sim (fun sA wA sB wB => P sA wA sB wB /\ sA = s0 /\ sB = s1) Q (f s0) (g s1)) -> sim P Q (abind service f) (abind service g).
Proof. intros H sA wA sB wB HP x sA' wA' E. unfold abind, service in *. eapply H; eauto. Qed.
Lemma sim_ret (P : srel) {T} (x : T) : sim P P (aret x) (aret x).
Proof. intros sA wA sB wB HP y sA' wA' [= <- <- <-]. exists sB, wB. auto. Qed.
Lemma sim_outcome (P : srel) {T} (x : outcome T) : sim P P (aoutcome x) (aoutcome x).
Proof. intros sA wA sB wB HP y sA' wA' E. unfold aoutcome in *. injection E as -> <- <-. exists sB, wB. auto. Qed.
Lemma sim_modify (P Q : srel) f g : (forall sA wA sB wB, P sA wA sB wB -> Q (f sA) wA (g sB) wB) -> sim P Q (modify f) (modify g).
Proof. intros H sA wA sB wB HP y sA' wA' E. unfold modify in *. injection E as <- <- <-. eauto. Qed.
Lemma sim_pre (P P' Q : srel) {T} (a b : act T) : (forall sA wA sB wB, P' sA wA sB wB -> P sA wA sB wB) -> sim P Q a b -> sim P' Q a b.
Proof. intros H S sA wA sB wB HP. apply S. auto. Qed.
Lemma sim_post (P Q Q' : srel) {T} (a b : act T) : (forall sA wA sB wB, Q sA wA sB wB -> Q' sA wA sB wB) -> sim P Q a b -> sim P Q' a b.
Proof. intros H S sA wA sB wB HP x sA' wA' E. destruct (S _ _ _ _ HP _ _ _ E) as (s & w & E2 & HQ). eauto 6. Qed.

Section Twice.
  Context (cwd base : list string) (cwd_plain : Forall plain_name cwd).
  Let astra := (base ++ [".astra"])%list.

  Definition nowhere : list string -> Prop := fun _ => False.
  Definition home (w : World) : Prop :=
    w_cwd w = cwd /\ sorted_tree (w_fs w) /\ plain_tree (w_fs w) /\ kind_at base (w_fs w) = Some KDir.
  Definition dirs0 (s : Service) : Prop := locate cwd (sv_workDir s) = base /\ (sv_cacheEnabled s = true -> sv_cachePath s = "").
  Definition dirs (s : Service) : Prop := dirs0 s /\ sv_workDir s <> "".

  (** What happened is inside the directory of astra. *)
  Definition quiet (R : Prop) (w w' : World) : Prop :=
    w_cwd w' = w_cwd w /\ w_names w' = w_names w /\ steady base nowhere R (fun q => kind_at q (w_fs w)) (w_fs w').

  Lemma steady_start D R w : home w -> steady base D R (fun q => kind_at q (w_fs w)) (w_fs w).
  Proof. intros (_ & S & P & _). split; auto. split; auto. split; [intros; now left|]. split; eauto. Qed.
  Lemma quiet_home R w w' : home w -> quiet R w w' -> home w'.
  Proof.
    intros (C & _ & _ & B) (C' & _ & ST). assert (X := steady_base base nowhere R _ B _ ST).
    destruct ST as (S & P & _). split; [congruence|auto].
  Qed.
  Lemma quiet_outside R w w' : quiet R w w' -> forall q, ~ inside astra q -> kind_at q (w_fs w') = kind_at q (w_fs w).
  Proof. intros (_ & _ & _ & _ & O & _) q N. destruct (O q N) as [|([] & _)]; auto. Qed.
  Lemma quiet_ready w w' : quiet False w w' -> kind_at astra (w_fs w) = Some KDir -> kind_at astra (w_fs w') = Some KDir.
  Proof. intros (_ & _ & _ & _ & _ & _ & [[]|X]); auto. Qed.
  Lemma quiet_not_file R w w' : quiet R w w' -> (forall c, kind_at astra (w_fs w) <> Some (KFile c)) -> forall c, kind_at astra (w_fs w') <> Some (KFile c).
  Proof. intros (_ & _ & _ & _ & _ & F & _) N c E. apply F in E as (c' & E). exact (N c' E). Qed.

  Definition names_kept (s : Service) (w : World) (s' : Service) (w' : World) : Prop := w_names w' = w_names w.
  Lemma quiet_from (SI : Service -> Prop) R {T} (m : act T) s w r s' w' :
    (forall K, K base = Some KDir -> preserves (moments cwd SI (steady base nowhere R K)) m s w) ->
    preserves names_kept m s w -> m s w = (r, s', w') -> home w -> SI s -> quiet R w w' /\ SI s'.
  Proof.
    intros M N E H S. assert (H' := H). destruct H' as (C & _ & _ & B).
    specialize (M (fun q => kind_at q (w_fs w)) B). unfold preserves, names_kept, after_service, after_world in *.
    rewrite E in M, N. cbn [fst snd] in *. destruct (M C S (steady_start nowhere R w H)) as (C' & S' & ST & _).
    split; auto. split; [congruence|]. auto.
  Qed.
  Ltac nk := unfold names_kept; intros; cbn in *; congruence.

  Section Quiet.
    Context (env : Env).
    Let nd : ~ nowhere astra := fun x => x.
    Lemma q_cache s w r s' w' : Cache env s w = (r, s', w') -> home w -> dirs s -> sv_cachePath s = "" -> quiet False w w'.
    Proof.
      intros E H S C. refine (proj1 (quiet_from dirs False _ _ _ _ _ _ _ _ E H S)).
      - intros K KB. apply c_cache; auto. apply S.
      - apply p_cache; nk.
    Qed.
    Lemma q_getMain s w r s' w' : GetMainPackageName env s w = (r, s', w') -> home w -> dirs s -> quiet False w w' /\ dirs s'.
    Proof.
      intros E H S. refine (quiet_from dirs False _ _ _ _ _ _ _ _ E H S).
      - intros K KB. apply c_getMain; auto; intros x Hx; apply Hx.
      - apply p_getMain; nk.
    Qed.
    Lemma q_cleanUp s w r s' w' : cleanUp env s w = (r, s', w') -> home w -> dirs s -> quiet True w w' /\ dirs s'.
    Proof.
      intros E H S. refine (quiet_from dirs True _ _ _ _ _ _ _ _ E H S).
      - intros K KB. apply c_cleanUp; auto; intros x Hx; apply Hx.
      - apply p_cleanUp; nk.
    Qed.
    Lemma q_setupAstra s w r s' w' : setupAstraDir env s w = (r, s', w') -> home w -> dirs0 s -> quiet False w w' /\ s' = s.
    Proof.
      intros E H S. split.
      - refine (proj1 (quiet_from dirs0 False _ _ _ _ _ _ _ _ E H S)).
        + intros K KB. apply c_setupAstraDir; auto. apply S.
        + apply p_setupAstraDir; nk.
      - assert (P : preserves (fun s _ s' _ => s' = s) (setupAstraDir env) s w) by (apply p_setupAstraDir; intros; congruence).
        unfold preserves, after_service in P. now rewrite E in P.
    Qed.
  End Quiet.

  (** ** Without faults *)
  Section Works.
    Context (env : Env) (NF : forall n, e_fault env n = None).

    Lemma stat_works p s w : exists st, os_Stat env p s w = (Ok st, s, tick (w_fs w) w) /\
      (st = SThere <-> kind_at (locate (w_cwd w) p) (w_fs w) <> None).
    Proof.
      unfold os_Stat. rewrite NF. unfold kind_at. destruct (get _ _) as [[]|]; eexists; (split; [reflexivity|]); cbn; split; try congruence.
      destruct (through_file _ _); discriminate.
    Qed.
    Lemma removeall_works a k s w :
      plain_name k -> kind_at (locate (w_cwd w) a) (w_fs w) = Some KDir ->
      exists t, os_RemoveAll env (path_Join [a; k]) s w = (Ok tt, s, tick t w) /\
        forall q, kind_at q t = if is_prefix (locate (w_cwd w) a ++ [k]) q then None else kind_at q (w_fs w).
    Proof.
      intros P D. destruct (path_join_removable a k P) as (X & Y). unfold os_RemoveAll. rewrite X, Y.
      assert (L := locate_join_plain (w_cwd w) a k P).
      destruct (remove_all_some _ k _ D) as (t & RM). exists t. split.
      - rewrite L. destruct (locate (w_cwd w) a ++ [k])%list eqn:LL; [now destruct (locate (w_cwd w) a)|]. rewrite <- LL in *.
        apply call_works; auto. rewrite L. exact RM.
      - apply remove_all_spec; auto. now destruct (locate (w_cwd w) a).
    Qed.

    Lemma cache_works s w :
      home w -> dirs s -> sv_cachePath s = "" -> kind_at astra (w_fs w) = Some KDir -> exists w', Cache env s w = (Ok tt, s, w').
    Proof.
      intros (C & _) ((B & _) & _) CP A.
      assert (E : cachePath s = path_Join [getAstraDirPath s; "cache.json"]) by (unfold cachePath; now rewrite CP).
      assert (LA : forall x, w_cwd x = cwd -> locate (w_cwd x) (getAstraDirPath s) = astra) by (intros x ->; now apply astra_at).
      assert (L : forall x, w_cwd x = cwd -> locate (w_cwd x) (cachePath s) = (astra ++ ["cache.json"])%list).
      { intros x Cx. rewrite E, locate_join_plain, LA by (auto; exact plain_cache). reflexivity. }
      unfold Cache. unfold abind at 1, service. unfold abind at 1.
      destruct (stat_works (cachePath s) s w) as (st & -> & ST).
      assert (X : exists w2, (match st with SThere => ClearCache env | _ => aret tt end) s (tick (w_fs w) w) = (Ok tt, s, w2) /\
        w_cwd w2 = cwd /\ kind_at astra (w_fs w2) = Some KDir /\ kind_at (astra ++ ["cache.json"]) (w_fs w2) = None).
      { destruct (kind_at (locate (w_cwd w) (cachePath s)) (w_fs w)) as [kd|] eqn:KC.
        - assert (st = SThere) as -> by (apply ST; discriminate). unfold ClearCache. unfold abind at 1, service. unfold abind at 1.
          destruct (stat_works (cachePath s) s (tick (w_fs w) w)) as (st & -> & ST2).
          assert (st = SThere) as -> by (apply ST2; cbn; rewrite KC; discriminate).
          destruct (removeall_works (getAstraDirPath s) "cache.json" s (tick (w_fs (tick (w_fs w) w)) (tick (w_fs w) w)) plain_cache) as (t & RM & KT).
          { cbn [w_cwd tick w_fs]. now rewrite LA. }
          rewrite E, RM. eexists. split; [reflexivity|]. cbn [w_cwd tick w_fs] in *. split; auto. rewrite !KT, LA by auto.
          rewrite is_prefix_refl. split; auto. destruct (is_prefix _ astra) eqn:P; auto.
          apply is_prefix_spec in P as (r & P). apply (f_equal (@List.length _)) in P. rewrite !app_length in P. cbn in P. lia.
        - exists (tick (w_fs w) w). cbn [w_cwd tick w_fs]. rewrite L in KC by auto. split; [|auto].
          destruct st; try reflexivity. now destruct (proj1 ST eq_refl). }
      destruct X as (w2 & X & C2 & A2 & N2). unfold abind at 1. rewrite X.
      assert (Y : is_yaml (cachePath s) = false) by (apply json_not_yaml, default_json; auto).
      destruct (writefile_works env (cachePath s) (CCache (is_yaml (cachePath s)) (json_service s)) s w2 astra "cache.json") as (s3 & w3 & W); auto.
      { rewrite N2. discriminate. }
      assert (s3 = s) as -> by now apply writefile_ok in W.
      exists w3. unfold os_WriteFile in W. revert W. unfold abind. rewrite Y.
      destruct (os_Create env (cachePath s) s w2) as [[[u|e| |] s4] w4]; auto.
    Qed.

    Lemma setupAstra_works s w :
      home w -> dirs0 s -> (forall c, kind_at astra (w_fs w) <> Some (KFile c)) ->
      exists w', setupAstraDir env s w = (Ok tt, s, w') /\ kind_at astra (w_fs w') = Some KDir.
    Proof.
      intros (C & _ & _ & BD) (B & _) NFI. assert (P : plain_name ".gitignore") by (repeat split; discriminate).
      assert (LA : forall x, w_cwd x = cwd -> locate (w_cwd x) (getAstraDirPath s) = astra) by (intros x ->; now apply astra_at).
      destruct (mkdir_all_some astra (w_fs w)) as (t & M).
      { intros q c Q. apply is_prefix_spec in Q as (r & Q). destruct (split_last r) as [->|(r' & j & ->)].
        - rewrite app_nil_r in Q. subst. apply NFI.
        - unfold astra in Q. rewrite app_assoc in Q. apply app_inj_tail in Q as (Q & _). intros KF. rewrite Q in BD.
          destruct r' as [|j' r']; [rewrite app_nil_r in BD; congruence|].
          rewrite (kind_file_below q (j' :: r') c) in BD; auto; discriminate. }
      assert (MS := mkdir_all_spec _ _ _ M).
      unfold setupAstraDir. unfold abind at 1, service. unfold abind at 1, os_MkdirAll.
      rewrite (call_works env mkdir_all _ s w t) by (auto; now rewrite LA).
      unfold setupGitIgnore. unfold abind at 1, service. unfold abind at 1.
      destruct (stat_works (path_Join [getAstraDirPath s; ".gitignore"]) s (tick t w)) as (st & -> & ST). cbn [w_cwd tick w_fs] in *.
      assert (L : locate (w_cwd w) (path_Join [getAstraDirPath s; ".gitignore"]) = (astra ++ [".gitignore"])%list) by (rewrite locate_join_plain, LA; auto).
      assert (K1 : kind_at astra t = Some KDir) by now rewrite MS, is_prefix_refl.
      destruct (kind_at (astra ++ [".gitignore"]) t) as [kd|] eqn:KG.
      - assert (st = SThere) as -> by (apply ST; rewrite L, KG; discriminate). eexists. split; [reflexivity|]. exact K1.
      - destruct (writefile_works env (path_Join [getAstraDirPath s; ".gitignore"]) (CBytes (String "*" (str1 (ascii_of_nat 10)))) s (tick t (tick t w)) astra ".gitignore")
          as (s3 & w3 & W); auto.
        { cbn. rewrite KG. discriminate. }
        assert (st <> SThere) as NS by (intros ->; destruct (proj1 ST eq_refl); now rewrite L).
        assert (X := writefile_ok _ _ _ _ _ _ _ W). destruct X as (-> & _ & _ & KW). cbn [w_cwd tick w_fs] in KW. rewrite L in KW.
        exists w3. split; [destruct st; try congruence; exact W|]. rewrite KW. destruct (is_prefix _ astra) eqn:PX; auto.
        apply is_prefix_spec in PX as (r & PX). apply (f_equal (@List.length _)) in PX. rewrite !app_length in PX. cbn in PX. lia.
    Qed.

    Lemma cleanUp_works s w : exists s' w', cleanUp env s w = (Ok tt, s', w').
    Proof.
      unfold cleanUp, ignore. unfold abind at 1, service.
      match goal with |- context [match ?x with _ => _ end] => destruct x as [[[u|e| |] s'] w'] eqn:E end; try (destruct u; eauto); eauto.
      all: exfalso; revert E;
        assert (CT : forall f p s w, fst (fst (call_tree env f p s w)) = Ok tt \/ exists e, fst (fst (call_tree env f p s w)) = Err e)
          by (intros f p s1 w1; unfold call_tree; rewrite NF; destruct (f _ _); cbn; eauto);
        assert (RM : forall p s w, fst (fst (os_RemoveAll env p s w)) = Ok tt \/ exists e, fst (fst (os_RemoveAll env p s w)) = Err e)
          by (intros p s1 w1; unfold os_RemoveAll; destruct (String.eqb p ""); [now left|]; destruct (_ || _); [right; eexists; reflexivity|];
              destruct (locate _ _); [right; eexists; reflexivity|apply CT]);
        destruct (negb _ && _); unfold cleanupAstraDir, cleanupTempMainPackage, abind, service.
      - intros E. destruct (RM (getAstraDirPath s) s w) as [X|(e & X)]; rewrite E in X; discriminate.
      - destruct (stat_works (path_Join [getAstraDirPath s; mainPackageReplacement]) s w) as (st & -> & _). destruct st; try discriminate.
        intros E. match type of E with ?m ?p ?a ?b ?c = _ => destruct (RM a b c) as [X|(e & X)] end; rewrite E in X; discriminate.
      - intros E. destruct (RM (getAstraDirPath s) s w) as [X|(e & X)]; rewrite E in X; discriminate.
      - destruct (stat_works (path_Join [getAstraDirPath s; mainPackageReplacement]) s w) as (st & -> & _). destruct st; try discriminate.
        intros E. match type of E with ?m ?p ?a ?b ?c = _ => destruct (RM a b c) as [X|(e & X)] end; rewrite E in X; discriminate.
    Qed.
  End Works.
End Twice.
