(** Proofs about goroutines that share a package manager. *)
From Coq Require Import List String Ascii Bool Arith Lia.
From Verif Require Import BaseStr BaseMap M_Types M_Parse M_Packages M_Threads S_Packages S_Threads P_Parse P_Packages.
Import ListNotations.
Local Open Scope string_scope.

Lemma set_over {A} (t : nat) (x : A) l : List.length l <= t -> set_nth t x l = l.
Proof. revert t. induction l as [|y l IH]; intros [|t] L; cbn in *; auto; try lia. f_equal. apply IH. lia. Qed.

(** ** The tree alone *)
Definition bare (n : PackageNode) : PackageNode := mkNode (n_parent n) (n_name n) (n_edges n) None [].
Lemma tree_size m : nodes (tree m) = nodes m.
Proof. apply map_length. Qed.
Lemma tree_node m p : node (tree m) p = bare (node m p).
Proof. unfold node, tree. change (mkNode None "" [] None []) with (bare (mkNode None "" [] None [])) at 1. apply (map_nth bare). Qed.
Lemma tree_edge m p s : edge (tree m) p s = edge m p s.
Proof. unfold edge. rewrite tree_node. apply find_ext. intros x _. now rewrite tree_node. Qed.
Lemma tree_found m l : forall p, findSteps (tree m) p l = findSteps m p l.
Proof. induction l as [|s l IH]; intros p; auto. cbn. rewrite tree_edge. destruct (edge m p s); auto. Qed.
Lemma tree_Find m path : Find (tree m) path = Find m path.
Proof. unfold Find. now rewrite tree_found. Qed.
Lemma map_set_nth {A B} (f : A -> B) p x l : map f (set_nth p x l) = set_nth p (f x) (map f l).
Proof. revert p. induction l as [|y l IH]; intros [|p]; cbn; auto. now rewrite IH. Qed.
Lemma tree_new m p s : tree (newEdge m p s) = newEdge (tree m) p s.
Proof. unfold newEdge, tree. rewrite map_app, map_set_nth. cbn [map]. change (map _ m) with (tree m). now rewrite tree_size, tree_node. Qed.
Lemma set_nth_self {A} (d : A) p l : set_nth p (nth p l d) l = l.
Proof. revert p. induction l as [|y l IH]; intros [|p]; cbn; auto. now rewrite IH. Qed.
Lemma tree_set m p pk fs : tree (set_nth p (mkNode (n_parent (node m p)) (n_name (node m p)) (n_edges (node m p)) pk fs) m) = tree m.
Proof.
  unfold tree. rewrite map_set_nth. cbn [n_parent n_name n_edges]. change (map _ m) with (tree m). change (mkNode _ _ _ None []) with (bare (node m p)).
  rewrite <- tree_node. apply set_nth_self.
Qed.
Lemma tree_new_manager : tree NewPackageManager = NewPackageManager.
Proof. reflexivity. Qed.

Definition holds (pl : place) : bool := match pl with
  | PAddWalk _ _ _ _ | PAddNew _ _ _ _ _ | PAddUnlock _ _ _ | PFindWalk _ _ _ _ | PFindUnlock _ _ _ => true | _ => false end.

(** Whom a call serves. *)
Fixpoint serves (adds : bool) (now : option request) (path : string) (k : caller) : Prop :=
  match k with
  | CSelf b => exists r, now = Some r /\ asks r = path /\ gets r = b /\ (adds = false -> r = RFind path)
  | COrAdd path' k => adds = false /\ path' = path /\ serves true now path k
  | CImport _ _ _ _ => now = None /\ adds = true
  end.
Fixpoint caller_ok (m : manager) (k : caller) : Prop :=
  match k with CSelf _ => True | COrAdd _ k => caller_ok m k | CImport p _ _ _ => p < nodes m end.
Definition at_node (m : manager) (path : string) (cur : nat) (steps : list string) : Prop :=
  exists lp, (lp ++ steps)%list = split "/" path /\ findSteps m 0 lp = Some cur.
(** *** Paths of nodes do not change *)
Lemma path_stable m m' : wf m -> grows m m' -> forall p fuel fuel' a, p < nodes m -> p < fuel -> p < fuel' -> pathUp fuel' m' p a = pathUp fuel m p a.
Proof.
  intros W G. induction p as [p IH] using lt_wf_ind. intros [|fuel] [|fuel'] a L F F'; try lia. cbn.
  destruct (gr_node _ _ G p L) as (-> & -> & _). destruct (n_parent (node m p)) as [q|] eqn:Q; auto.
  destruct (Nat.eq_dec p 0) as [->|N]; [destruct (wf_root m W) as (_ & X); congruence|].
  destruct (wf_up m W p) as (q' & H & E & _); [lia|]. rewrite Q in E. injection E as <-. apply IH; lia.
Qed.
Definition path_at (m : manager) (p : nat) : outcome string := Path (S (nodes m)) m p.
Lemma path_at_grows m m' p : wf m -> grows m m' -> p < nodes m -> path_at m' p = path_at m p.
Proof. intros W G L. assert (X := gr_size _ _ G). unfold path_at, Path. apply path_stable; auto; lia. Qed.

Section Steps.
  Context (loaders : list (string -> option string)) (disk : string -> string -> option package) (workDir : string).
(** The path a node is loaded from, and the package there. *)
Definition source (m : manager) (p : nat) (path : string) : Prop := exists path0, path_at m p = Ok path0 /\ path = loadedPath loaders path0.
Definition content (m : manager) (p : nat) (pkg : package) : Prop := exists path, source m p path /\ disk workDir path = Some pkg.
Definition packages_ok (m : manager) : Prop := forall p pkg, p < nodes m -> n_package (node m p) = Some pkg -> content m p pkg.
Definition cache_ok (c : cachedPackages) : Prop := forall path pkg, mlookup path c = Some pkg -> disk workDir path = Some pkg.
Lemma source_grows m m' p path : wf m -> grows m m' -> p < nodes m -> source m p path -> source m' p path.
Proof. intros W G L (x & E & H). exists x. now rewrite (path_at_grows m). Qed.
Lemma content_grows m m' p pkg : wf m -> grows m m' -> p < nodes m -> content m p pkg -> content m' p pkg.
Proof. intros W G L (x & E & H). exists x. split; auto. now apply (source_grows m). Qed.
Lemma content_one m p pkg pkg' : content m p pkg -> content m p pkg' -> pkg = pkg'.
Proof. intros (a & (a0 & A & ->) & P) (b & (b0 & B & ->) & Q). congruence. Qed.

Definition ok (m : manager) (g : goroutine) : Prop :=
  match g_place g with
  | PIdle => g_now g = None
  | PAddLock path k => serves true (g_now g) path k /\ caller_ok m k
  | PAddWalk path cur steps k => serves true (g_now g) path k /\ caller_ok m k /\ at_node m path cur steps
  | PAddNew path cur step steps k => serves true (g_now g) path k /\ caller_ok m k /\ at_node m path cur (step :: steps) /\ edge m cur step = None
  | PAddUnlock path q k => serves true (g_now g) path k /\ caller_ok m k /\ findSteps m 0 (split "/" path) = Some q
  | PFindLock path k => serves false (g_now g) path k /\ caller_ok m k
  | PFindWalk path cur steps k => serves false (g_now g) path k /\ caller_ok m k /\ at_node m path cur steps
  | PFindUnlock path r k => serves false (g_now g) path k /\ caller_ok m k /\ r = findSteps m 0 (split "/" path)
  | PGetRange p => g_now g = None /\ p < nodes m /\ n_package (node m p) <> None
  | PGetCached p path => g_now g = None /\ p < nodes m /\ source m p path
  | PGetStore p path pkg => g_now g = None /\ p < nodes m /\ source m p path /\ disk workDir path = Some pkg
  | PGetSet p pkg => g_now g = None /\ p < nodes m /\ content m p pkg
  | PGetCheck p | PGetImports p _ _ _ | PGetAppend p _ _ | PGetReturn p => g_now g = None /\ p < nodes m
  end.
Definition got_ok (m : manager) (g : goroutine) : Prop := forall r q, In (r, q) (g_got g) ->
  match q with Some n => findSteps m 0 (split "/" (asks r)) = Some n | None => exists path, r = RFind path end.

Lemma caller_grows m m' k : grows m m' -> caller_ok m k -> caller_ok m' k.
Proof. intros G. induction k; cbn; auto. intros H. assert (X := gr_size _ _ G). lia. Qed.
Lemma at_node_grows m m' path cur steps : wf m -> grows m m' -> at_node m path cur steps -> at_node m' path cur steps.
Proof. intros W G (lp & E & F). exists lp. split; auto. now apply (grows_found m). Qed.
Lemma got_grows m m' g : wf m -> grows m m' -> got_ok m g -> got_ok m' g.
Proof. intros W G H r q I. specialize (H r q I). destruct q; auto. now apply (grows_found m). Qed.
Lemma ok_grows m m' g : wf m -> grows m m' -> (holds (g_place g) = true -> tree m' = tree m) -> ok m g -> ok m' g.
Proof.
  intros W G T. assert (Z := gr_size _ _ G). assert (C := fun k => caller_grows m m' k G). assert (A := fun p c l => at_node_grows m m' p c l W G).
  unfold ok. destruct (g_place g) as [|path k|path cur steps k|path cur step steps k|path q k|path k|path cur steps k|path r k|p|p path|p path pkg|p pkg|p|p done imports files|p done files|p];
    cbn in T; intros H; decompose [and] H; repeat split; auto; try lia.
  - rewrite <- tree_edge, T by auto. now rewrite tree_edge.
  - now apply (grows_found m).
  - rewrite <- tree_found, T by auto. now rewrite tree_found.
  - now apply (source_grows m).
  - now apply (source_grows m).
  - now apply (content_grows m).
  - destruct (gr_node _ _ G p) as (_ & _ & _ & X); auto. destruct (n_package (node m p)) as [k|] eqn:K; [|contradiction]. rewrite (X k); auto.
Qed.

(** ** One step *)
Lemma resume_ok m g path k : forall adds r, serves adds (g_now g) path k -> caller_ok m k -> wf m ->
  match r with Some q => findSteps m 0 (split "/" path) = Some q | None => adds = false end -> got_ok m g ->
  ok m (resume k r g) /\ holds (g_place (resume k r g)) = false /\ got_ok m (resume k r g).
Proof.
  induction k as [b|path' k IH|p done imports files]; intros adds r S C W R GO; cbn [resume].
  - destruct S as (q & N & A & B & F). unfold give. rewrite N.
    assert (X : got_ok m (mkG (g_place g) None (g_todo g) (g_got g ++ [(q, r)]))).
    { intros r' n I. cbn in I. apply in_app_iff in I as [I|[I|[]]]; [now apply GO|]. injection I as <- <-. rewrite A. destruct r; auto. exists path. auto. }
    destruct b, r as [n|]; cbn; repeat split; auto. apply found_node in R as (R & _); auto.
  - destruct S as (-> & -> & S). destruct r as [q|]; [now apply (IH true)|]. cbn. unfold ok. cbn. auto.
  - destruct S as (N & ->). destruct r as [q|]; [|discriminate]. cbn. unfold ok. cbn. auto.
Qed.

  Notation tick := (tick loaders disk workDir).
  Notation tstep := (tstep loaders disk workDir).

  Ltac same := match goal with R : grows ?m ?m |- wf ?m /\ _ => split; [assumption|]; split; [exact R|]; split; [assumption|]; split; [assumption|]; split; [|split; [match goal with K : forall x, _ -> got_ok m x |- _ => now apply K end|]] end.
  Lemma tick_ok t g m mu c m' mu' c' g' h : wf m -> packages_ok m -> cache_ok c -> ok m g -> got_ok m g -> tick t g m mu c = Some (m', mu', c', g', h) ->
    wf m' /\ grows m m' /\ packages_ok m' /\ cache_ok c' /\ ok m' g' /\ got_ok m' g' /\
    (if holds (g_place g) then (mu' = mu /\ holds (g_place g') = true) \/ (mu' = None /\ holds (g_place g') = false)
     else tree m' = tree m /\ ((mu' = mu /\ holds (g_place g') = false) \/ (mu = None /\ mu' = Some t /\ holds (g_place g') = true))).
  Proof.
    intros W PO CO O GO E. unfold M_Threads.tick in E.
    assert (R := grows_refl m).
    destruct g as [pl now todo got]. unfold ok in O. cbn [g_place g_now g_todo g_got] in *.
    assert (K : forall x, g_got x = got -> got_ok m x) by (intros x Ex; unfold got_ok; now rewrite Ex).
    destruct pl as [|path k|path cur steps k|path cur step steps k|path q k|path k|path cur steps k|path r k|p|p path|p path pkg|p pkg|p|p done imports files|p done files|p]; cbn [holds].
    - destruct todo as [|r todo]; [discriminate|]. injection E as <- <- <- <- <-. same; [|split; [auto|left; destruct r; auto]].
      unfold ok. destruct r; cbn; repeat split; auto; eexists; split; try reflexivity; repeat split; auto; discriminate.
    - destruct mu; [discriminate|]. injection E as <- <- <- <- <-. destruct O as (S & C). same; cbn; auto. repeat split; auto. exists []. auto.
    - destruct O as (S & C & lp & El & F). destruct steps as [|step steps].
      + injection E as <- <- <- <- <-. rewrite List.app_nil_r in El. subst lp. same; cbn; auto.
      + injection E as <- <- <- <- <-. destruct (edge m cur step) as [q|] eqn:Q; same; cbn; auto; repeat split; auto.
        * exists (lp ++ [step])%list. rewrite <- app_assoc. split; auto. now rewrite findSteps_snoc, F.
        * exists lp. auto.
    - destruct O as (S & C & (lp & El & F) & N). injection E as <- <- <- <- <-. assert (L : cur < nodes m) by (eapply found_node; eauto).
      assert (G : grows m (newEdge m cur step)) by now apply ne_grows.
      assert (W' : wf (newEdge m cur step)) by now apply ne_wf.
      split; [auto|]. split; [auto|]. split; [|split; [auto|split; [|split; [apply (got_grows m); auto|left; auto]]]].
      + intros p pkg Lp Ep. rewrite ne_size in Lp by auto. destruct (Nat.eq_dec p (nodes m)) as [->|Np]; [rewrite ne_new in Ep by auto; discriminate|].
        destruct (ne_old m cur step p) as (_ & _ & X & _); [lia|]. rewrite X in Ep. apply (content_grows m); auto; [lia|]. apply PO; [lia|auto].
      + cbn. split; [auto|]. split; [now apply (caller_grows m)|].
        exists (lp ++ [step])%list. rewrite <- app_assoc. split; auto. rewrite findSteps_snoc, (grows_found m _ 0 lp cur W G F). now apply ne_edge.
    - destruct O as (S & C & F). injection E as <- <- <- <- <-.
      destruct (resume_ok m (mkG (PAddUnlock path q k) now todo got) path k true (Some q) S C W F GO) as (A & B & D).
      repeat (split; [assumption|]). right. auto.
    - destruct mu; [discriminate|]. injection E as <- <- <- <- <-. destruct O as (S & C). same; cbn; auto. repeat split; auto. exists []. auto.
    - destruct O as (S & C & lp & El & F). destruct steps as [|step steps].
      + injection E as <- <- <- <- <-. rewrite List.app_nil_r in El. subst lp. same; cbn; auto; repeat split; auto.
        rewrite F. destruct (Nat.eqb cur 0) eqn:Z; auto. apply Nat.eqb_eq in Z; subst. apply found_node in F as (_ & F); auto.
        exfalso. apply (split_not_nil "/" path). now apply F.
      + injection E as <- <- <- <- <-. destruct (edge m cur step) as [q|] eqn:Q; same; cbn; auto; repeat split; auto.
        * exists (lp ++ [step])%list. rewrite <- app_assoc. split; auto. now rewrite findSteps_snoc, F.
        * rewrite <- El, findSteps_app, F. cbn. now rewrite Q.
    - destruct O as (S & C & F). injection E as <- <- <- <- <-.
      destruct (resume_ok m (mkG (PFindUnlock path r k) now todo got) path k false r S C W) as (A & B & D); auto.
      { destruct r; auto. }
      repeat (split; [assumption|]). right. auto.
    - destruct O as (N & L). destruct (n_package (node m p)); [|destruct (Path _ m p) as [path0| | |] eqn:Ep; try discriminate]; injection E as <- <- <- <- <-; same; cbn; auto.
      repeat split; auto. exists path0. auto.
    - destruct O as (N & L & S). destruct (mlookup path c) as [pkg|] eqn:M; [|destruct (disk workDir path) as [pkg|] eqn:D]; injection E as <- <- <- <- <-; same; cbn; auto.
      repeat split; auto. exists path. auto.
    - destruct O as (N & L & S & D). injection E as <- <- <- <- <-. split; [auto|]. split; [auto|]. split; [auto|]. split; [|split; [|split; [now apply K|auto]]].
      + intros path' pkg' M. destruct (string_dec path path') as [->|Np]; [rewrite mlookup_insert_eq in M|rewrite mlookup_insert_ne in M by auto]; auto. congruence.
      + repeat split; auto. exists path. auto.
    - destruct O as (N & L & C). injection E as <- <- <- <- <-.
      destruct (set_shape m p (Some pkg) (n_files (node m p)) W L) as (W' & F & Z & Nd & Ot & Pk & Fi).
      assert (K' : n_package (node m p) = None \/ n_package (node m p) = Some pkg). { destruct (n_package (node m p)) as [k|] eqn:Ek; auto. right. f_equal. apply (content_one m p); auto. }
      destruct (shape_done m p (Some pkg) (n_files (node m p)) W L K') as (_ & G & _).
      set (m' := set_nth p _ m) in *. assert (L' : p < nodes m') by lia.
      assert (T : tree m' = tree m) by apply tree_set.
      split; [auto|]. split; [auto|]. split; [|split; [auto|split; [|split; [|split; [exact T|left; auto]]]]].
      + intros q k Lq Eq. apply (content_grows m); auto; [lia|]. destruct (Nat.eq_dec q p) as [->|Nq]; [congruence|]. apply PO; [lia|]. now rewrite <- (Ot q).
      + cbn. repeat split; auto. rewrite Pk. discriminate.
      + apply (got_grows m); auto.
    - destruct O as (N & L & P). destruct (n_package (node m p)) as [[|imports files]|]; try contradiction; injection E as <- <- <- <- <-; same; cbn; auto.
    - destruct O as (N & L). destruct imports as [|i imports]; injection E as <- <- <- <- <-; same; cbn; auto.
    - destruct O as (N & L). injection E as <- <- <- <- <-.
      destruct (set_shape m p (n_package (node m p)) (n_files (node m p) ++ [done])%list W L) as (W' & F & Z & Nd & Ot & Pk & Fi).
      destruct (shape_done m p (n_package (node m p)) (n_files (node m p) ++ [done])%list W L (or_intror eq_refl)) as (_ & G & _).
      set (m' := set_nth p _ m) in *. assert (L' : p < nodes m') by lia.
      assert (T : tree m' = tree m) by apply tree_set.
      split; [auto|]. split; [auto|]. split; [|split; [auto|split; [|split; [|split; [exact T|left; split; [auto|destruct files; auto]]]]]].
      + intros q k Lq Eq. apply (content_grows m); auto; [lia|]. apply PO; [lia|]. destruct (Nat.eq_dec q p) as [->|Nq]; [congruence|]. now rewrite <- (Ot q).
      + destruct files; cbn; auto.
      + apply (got_grows m); auto. 
    - destruct O as (N & L). injection E as <- <- <- <- <-; same; cbn; auto.
  Qed.

  (** ** Whole processes *)
  Record inv (s : process) : Prop := {
    i_wf : wf (p_mem s);
    i_packages : packages_ok (p_mem s);
    i_cache : cache_ok (p_cache s);
    i_ok : forall t g, nth_error (p_threads s) t = Some g -> ok (p_mem s) g /\ got_ok (p_mem s) g;
    i_held : forall t g, nth_error (p_threads s) t = Some g -> holds (g_place g) = true -> p_mu s = Some t;
    i_lock : forall t, p_mu s = Some t -> exists g, nth_error (p_threads s) t = Some g /\ holds (g_place g) = true }.

  Lemma inv_fresh work : inv (fresh work).
  Proof.
    assert (T : forall t g, nth_error (p_threads (fresh work)) t = Some g -> g_place g = PIdle /\ g_now g = None /\ g_got g = []).
    { intros t g E. apply nth_error_In, in_map_iff in E as (l & <- & _). auto. }
    split; cbn [p_mem p_mu p_cache fresh].
    - apply wf_new.
    - intros [|[|p]] pkg _ E; discriminate E.
    - intros path pkg E. discriminate E.
    - intros t g E. apply T in E as (E1 & E2 & E3). split; [unfold ok; now rewrite E1|]. intros r q I. rewrite E3 in I. destruct I.
    - intros t g E H. apply T in E as (E1 & _). rewrite E1 in H. discriminate H.
    - discriminate.
  Qed.

  Lemma tstep_tick t s s' h : tstep t s = Some (s', h) -> exists g g' m mu c, nth_error (p_threads s) t = Some g /\
    tick t g (p_mem s) (p_mu s) (p_cache s) = Some (m, mu, c, g', h) /\ s' = mkProc m mu c (set_nth t g' (p_threads s)).
  Proof.
    unfold M_Threads.tstep. intros E. destruct (nth_error (p_threads s) t) as [g|]; [|discriminate]. destruct (tick t g _ _ _) as [((((m & mu) & c) & g') & h')|] eqn:Et; [|discriminate].
    injection E as <- <-. exists g, g', m, mu, c. auto.
  Qed.

  Lemma inv_step t s s' h : inv s -> tstep t s = Some (s', h) -> inv s' /\ grows (p_mem s) (p_mem s').
  Proof.
    intros [W PO CO O HD LK] E. apply tstep_tick in E as (g & g' & m & mu & c & Eg & Et & ->).
    destruct (O _ _ Eg) as (Og & Gg). destruct (tick_ok _ _ _ _ _ _ _ _ _ _ W PO CO Og Gg Et) as (W' & G & PO' & CO' & O' & G' & H).
    split; [|exact G]. assert (Other : forall t' x, nth_error (set_nth t g' (p_threads s)) t' = Some x -> (t' = t /\ x = g') \/ (t' <> t /\ nth_error (p_threads s) t' = Some x)).
    { intros t' x Ex. destruct (Nat.eq_dec t' t) as [->|N]; [left|right; split; auto; now rewrite nth_set_other in Ex by auto].
      split; auto. rewrite (nth_set_nth _ _ _ _ Eg) in Ex. congruence. }
    assert (Self : nth_error (set_nth t g' (p_threads s)) t = Some g') by (eapply nth_set_nth; eauto).
    split; cbn [p_mem p_mu p_cache p_threads]; auto.
    - intros t' x Ex. apply Other in Ex as [(-> & ->)|(N & Ex)]; auto. destruct (O _ _ Ex) as (A & B). split; [|now apply (got_grows (p_mem s))].
      apply (ok_grows (p_mem s)); auto. intros Hx. assert (X := HD _ _ Ex Hx). destruct (holds (g_place g)) eqn:Hg; [|tauto].
      assert (Y := HD _ _ Eg Hg). congruence.
    - intros t' x Ex Hx. apply Other in Ex as [(-> & ->)|(N & Ex)].
      + destruct (holds (g_place g)) eqn:Hg.
        * destruct H as [(-> & _)|(_ & H)]; [now apply (HD _ g)|congruence].
        * destruct H as (_ & [(_ & H)|(_ & -> & _)]); [congruence|auto].
      + assert (X := HD _ _ Ex Hx). destruct (holds (g_place g)) eqn:Hg; [assert (Y := HD _ _ Eg Hg); congruence|].
        destruct H as (_ & [(-> & _)|(H & _)]); [auto|congruence].
    - intros t' Et'. destruct (holds (g_place g)) eqn:Hg.
      + assert (Y := HD _ _ Eg Hg). destruct H as [(-> & H)|(-> & _)]; [|discriminate]. rewrite Y in Et'. injection Et' as <-. eauto.
      + destruct H as (_ & [(-> & _)|(H & -> & H2)]); [|injection Et' as <-; eauto]. destruct (LK _ Et') as (x & Ex & Hx). exists x. split; auto. rewrite nth_set_other; auto. intros <-. congruence.
  Qed.

  Lemma runs_inv work l s : runs loaders disk workDir work l s -> inv s.
  Proof. intros H. induction H as [|l s t s' h _ IH E]; [apply inv_fresh|]. eapply inv_step; eauto. Qed.
  Lemma steps_inv s s' : inv s -> steps loaders disk workDir s s' -> inv s' /\ grows (p_mem s) (p_mem s').
  Proof.
    intros I H. revert I. induction H as [|s t s1 h s2 E H IH]; intros I; [split; [auto|apply grows_refl]|].
    destruct (inv_step _ _ _ _ I E) as (I1 & G1). destruct (IH I1) as (I2 & G2). split; auto. eapply grows_trans; eauto.
  Qed.

  (** ** No deadlock *)
  Lemma tick_blocked t g m mu c : wf m -> ok m g -> tick t g m mu c = None -> (g_place g = PIdle /\ g_todo g = []) \/ (mu <> None /\ holds (g_place g) = false).
  Proof.
    intros W O E. unfold M_Threads.tick in E. unfold ok in O. destruct (g_place g) as [|path k|path cur steps k|path cur step steps k|path q k|path k|path cur steps k|path r k|p|p path|p path pkg|p pkg|p|p done imports files|p done files|p]; try discriminate.
    - destruct (g_todo g); [auto|discriminate].
    - destruct mu; [right; split; [discriminate|auto]|discriminate].
    - destruct steps; discriminate.
    - destruct mu; [right; split; [discriminate|auto]|discriminate].
    - destruct steps; discriminate.
    - destruct (n_package (node m p)); [discriminate|]. destruct O as (_ & L). destruct (Path_total m p (S (nodes m)) W L) as (path & X); [lia|]. rewrite X in E. discriminate.
    - destruct (mlookup path c); [discriminate|]. destruct (disk workDir path); discriminate.
    - destruct O as (_ & _ & P). destruct (n_package (node m p)) as [[|i f]|]; try discriminate. now contradiction P.
    - destruct imports; discriminate.
  Qed.
  Lemma progress s : inv s -> stuck loaders disk workDir s -> finished s.
  Proof.
    intros [W PO CO O HD LK] St. assert (B : forall t g, nth_error (p_threads s) t = Some g -> (g_place g = PIdle /\ g_todo g = []) \/ (p_mu s <> None /\ holds (g_place g) = false)).
    { intros t g Eg. apply (tick_blocked t g (p_mem s) (p_mu s) (p_cache s)); auto; [now apply (O t)|].
      assert (X := St t). unfold M_Threads.tstep in X. rewrite Eg in X. destruct (tick t g _ _ _) as [((((? & ?) & ?) & ?) & ?)|]; [discriminate|auto]. }
    assert (N : p_mu s = None).
    { destruct (p_mu s) as [t|] eqn:M; auto. destruct (LK t eq_refl) as (g & Eg & Hg). destruct (B t g Eg) as [(X & _)|(_ & X)]; [rewrite X in Hg; discriminate|congruence]. }
    apply Forall_forall. intros g I. apply In_nth_error in I as (t & Eg). destruct (B t g Eg) as [X|(X & _)]; auto. contradiction.
  Qed.

  (** ** No races on the tree *)
  Lemma edges_locked pl p w : access pl = Some (LEdges p, w) -> holds pl = true.
  Proof. destruct pl; try discriminate; auto; destruct steps; discriminate || auto. Qed.
  Lemma no_race_edges s p : inv s -> ~ race s (LEdges p).
  Proof.
    intros I (t & t' & g & g' & w & w' & N & E & E' & A & A' & _). apply edges_locked in A. apply edges_locked in A'.
    assert (X := i_held s I _ _ E A). assert (Y := i_held s I _ _ E' A'). congruence.
  Qed.
End Steps.
