(** The package tree. *)
From Coq Require Import List String Ascii Bool Arith Lia.
From Verif Require Import BaseStr BaseMap M_Types M_Parse M_Packages S_Packages P_Parse P_Path.
Import ListNotations.
Local Open Scope string_scope.

Notation nodes := (@List.length PackageNode).

Lemma node_set_same p n m : p < nodes m -> node (set_nth p n m) p = n.
Proof.
  intros L. unfold node. destruct (nth_error m p) eqn:E; [|apply nth_error_None in E; lia].
  apply (nth_error_nth (set_nth p n m)). now apply nth_set_nth with (y := p0).
Qed.
Lemma node_set_other p n m q : p <> q -> node (set_nth p n m) q = node m q.
Proof.
  intros N. unfold node. assert (H := nth_set_other p q n m N).
  destruct (nth_error (set_nth p n m) q) eqn:E.
  - rewrite (nth_error_nth _ _ _ E). symmetry in H. now rewrite (nth_error_nth _ _ _ H).
  - apply nth_error_None in E. symmetry in H. apply nth_error_None in H. now rewrite !nth_overflow.
Qed.
Lemma node_over m p : nodes m <= p -> node m p = mkNode None "" [] None [].
Proof. intros H. unfold node. now apply nth_overflow. Qed.

Lemma split_last_list {A} (l : list A) : l = [] \/ exists q k, l = (q ++ [k])%list.
Proof. destruct l as [|a l] using rev_ind; eauto. Qed.

(** ** The tree is a tree *)
Record wf (m : manager) : Prop := {
  wf_root : 0 < nodes m /\ n_parent (node m 0) = None;
  wf_up : forall p, 0 < p < nodes m -> exists q, q < p /\ n_parent (node m p) = Some q /\ In p (n_edges (node m q));
  wf_down : forall p e, In e (n_edges (node m p)) -> p < e < nodes m /\ n_parent (node m e) = Some p;
  wf_names : forall p, NoDup (map (fun e => n_name (node m e)) (n_edges (node m p))) }.

Lemma edge_some m p s q : edge m p s = Some q -> In q (n_edges (node m p)) /\ n_name (node m q) = s.
Proof. intros H. apply find_some in H as (H & E). apply String.eqb_eq in E. auto. Qed.
Lemma NoDup_map_inj {A B} (f : A -> B) l x y : NoDup (map f l) -> In x l -> In y l -> f x = f y -> x = y.
Proof.
  induction l as [|a l IH]; [easy|]. cbn. intros N [->|I] [->|J] E; auto; inversion N as [|? ? NI N']; subst; auto.
  - exfalso. apply NI. rewrite E. now apply in_map.
  - exfalso. apply NI. rewrite <- E. now apply in_map.
Qed.
Lemma edge_in m p q : wf m -> In q (n_edges (node m p)) -> edge m p (n_name (node m q)) = Some q.
Proof.
  intros W I. unfold edge. destruct (find _ _) as [q'|] eqn:F.
  - apply find_some in F as (I' & E). apply String.eqb_eq in E. f_equal.
    now apply (NoDup_map_inj _ _ _ _ (wf_names m W p) I' I).
  - exfalso. assert (H := find_none _ _ F _ I). cbn in H. now rewrite String.eqb_refl in H.
Qed.

Lemma findSteps_app m p l l' :
  findSteps m p (l ++ l') = match findSteps m p l with Some q => findSteps m q l' | None => None end.
Proof. revert p. induction l as [|s l IH]; intros p; auto. cbn. destruct (edge m p s); auto. Qed.
Lemma findSteps_snoc m p l s :
  findSteps m p (l ++ [s]) = match findSteps m p l with Some q => edge m q s | None => None end.
Proof. rewrite findSteps_app. destruct (findSteps m p l) as [q|]; auto. cbn. now destruct (edge m q s). Qed.

Lemma found_node m l p : wf m -> findSteps m 0 l = Some p -> p < nodes m /\ (p = 0 <-> l = []).
Proof.
  intros W. revert p. induction l as [|s l IH] using rev_ind; intros p F.
  { injection F as <-. split; [apply W|tauto]. }
  rewrite findSteps_snoc in F. destruct (findSteps m 0 l) as [q|] eqn:Q; [|discriminate].
  apply edge_some in F as (I & _). apply (wf_down m W) in I as (I & _). split; [lia|]. split; [lia|]. intros E. now destruct l.
Qed.

(** The same node has one path. *)
Lemma found_inj m l l' p : wf m -> findSteps m 0 l = Some p -> findSteps m 0 l' = Some p -> l = l'.
Proof.
  intros W. revert l' p. induction l as [|s l IH] using rev_ind; intros l' p F F'.
  { injection F as <-. apply (found_node m l' 0 W) in F' as (_ & F'). symmetry. now apply F'. }
  destruct (split_last_list l') as [->|(l2 & s' & ->)].
  { injection F' as <-. apply (found_node m (l ++ [s]) 0 W) in F as (_ & F). now apply F. }
  rewrite findSteps_snoc in F, F'. destruct (findSteps m 0 l) as [q|] eqn:Q; [|discriminate].
  destruct (findSteps m 0 l2) as [q'|] eqn:Q'; [|discriminate].
  apply edge_some in F as (I & <-). apply edge_some in F' as (I' & <-).
  apply (wf_down m W) in I as (_ & P). apply (wf_down m W) in I' as (_ & P'). rewrite P in P'. injection P' as <-.
  f_equal. now apply (IH l2 q).
Qed.

Lemma reachable m p : wf m -> p < nodes m -> exists l, findSteps m 0 l = Some p.
Proof.
  intros W. induction p as [p IH] using lt_wf_ind. intros L. destruct (Nat.eq_dec p 0) as [->|N]; [now exists []|].
  destruct (wf_up m W p) as (q & Q & _ & I); [lia|]. destruct (IH q Q) as (l & F); [lia|].
  exists (l ++ [n_name (node m p)])%list. rewrite findSteps_snoc, F. now apply edge_in.
Qed.

(** ** Growing *)

Record grows (m m' : manager) : Prop := {
  gr_size : nodes m <= nodes m';
  gr_node : forall p, p < nodes m ->
    n_parent (node m' p) = n_parent (node m p) /\ n_name (node m' p) = n_name (node m p) /\
    (exists x, n_edges (node m' p) = (n_edges (node m p) ++ x)%list) /\
    (forall k, n_package (node m p) = Some k -> n_package (node m' p) = Some k) }.

Lemma grows_refl m : grows m m.
Proof. constructor; auto. intros p L. repeat split; auto. exists []. now rewrite app_nil_r. Qed.
Lemma grows_trans m1 m2 m3 : grows m1 m2 -> grows m2 m3 -> grows m1 m3.
Proof.
  intros [S1 N1] [S2 N2]. constructor; [lia|]. intros p L. destruct (N1 p L) as (A1 & B1 & (x1 & C1) & D1).
  destruct (N2 p) as (A2 & B2 & (x2 & C2) & D2); [lia|]. rewrite A2, A1, B2, B1. repeat split; auto.
  exists (x1 ++ x2)%list. now rewrite C2, C1, app_assoc.
Qed.

Lemma find_app {A} (f : A -> bool) l l' : find f (l ++ l') = match find f l with Some x => Some x | None => find f l' end.
Proof. induction l as [|a l IH]; auto. cbn. destruct (f a); auto. Qed.
Lemma find_ext {A} (f g : A -> bool) l : (forall x, In x l -> f x = g x) -> find f l = find g l.
Proof. induction l as [|a l IH]; intros H; auto. cbn. rewrite (H a) by now left. destruct (g a); auto. apply IH. intros. apply H. now right. Qed.

Lemma grows_edge m m' p s q : wf m -> grows m m' -> edge m p s = Some q -> edge m' p s = Some q.
Proof.
  intros W G E. assert (I := proj1 (edge_some _ _ _ _ E)).
  assert (L : p < nodes m). { apply (wf_down m W) in I. lia. }
  destruct (gr_node m m' G p L) as (_ & _ & (x & X) & _). unfold edge. rewrite X, find_app.
  rewrite (find_ext _ (fun q0 => String.eqb (n_name (node m q0)) s)).
  - unfold edge in E. now rewrite E.
  - intros y Y. apply (wf_down m W) in Y as (Y & _). destruct (gr_node m m' G y) as (_ & -> & _); [lia|]. auto.
Qed.
Lemma grows_found m m' p l q : wf m -> grows m m' -> findSteps m p l = Some q -> findSteps m' p l = Some q.
Proof.
  intros W G. revert p. induction l as [|s l IH]; intros p E; auto. cbn in *.
  destruct (edge m p s) as [r|] eqn:R; [|discriminate]. rewrite (grows_edge _ _ _ _ _ W G R). auto.
Qed.

(** *** A new edge *)

Section NewEdge.
  Context (m : manager) (p : nat) (s : string) (W : wf m) (L : p < nodes m) (N : edge m p s = None).
  Let m' := newEdge m p s.

  Lemma ne_size : nodes m' = S (nodes m).
  Proof. unfold m', newEdge. rewrite app_length, set_nth_length. cbn. lia. Qed.
  Lemma ne_new : node m' (nodes m) = mkNode (Some p) s [] None [].
  Proof. unfold m', newEdge, node. rewrite app_nth2; rewrite set_nth_length; [now rewrite Nat.sub_diag|lia]. Qed.
  Lemma ne_old q : q < nodes m ->
    n_parent (node m' q) = n_parent (node m q) /\ n_name (node m' q) = n_name (node m q) /\
    n_package (node m' q) = n_package (node m q) /\ n_files (node m' q) = n_files (node m q) /\
    n_edges (node m' q) = (n_edges (node m q) ++ if Nat.eqb q p then [nodes m] else [])%list.
  Proof.
    intros Q. assert (E : node m' q = node (set_nth p (mkNode (n_parent (node m p)) (n_name (node m p)) (n_edges (node m p) ++ [nodes m])%list
       (n_package (node m p)) (n_files (node m p))) m) q).
    { unfold m', newEdge, node. rewrite app_nth1; [reflexivity|now rewrite set_nth_length]. }
    rewrite E. destruct (Nat.eqb q p) eqn:QP.
    - apply Nat.eqb_eq in QP; subst q. rewrite node_set_same by auto. cbn. auto.
    - apply Nat.eqb_neq in QP. rewrite node_set_other by auto. rewrite app_nil_r. auto.
  Qed.
  Lemma ne_edges q : n_edges (node m' q) = (n_edges (node m q) ++ if Nat.eqb q p then [nodes m] else [])%list.
  Proof.
    destruct (lt_eq_lt_dec q (nodes m)) as [[Q| ->]|Q].
    - now apply ne_old.
    - rewrite ne_new, node_over by auto. cbn. destruct (Nat.eqb (nodes m) p) eqn:E; auto. apply Nat.eqb_eq in E. lia.
    - rewrite !node_over by (rewrite ?ne_size; lia). cbn. destruct (Nat.eqb q p) eqn:E; auto. apply Nat.eqb_eq in E. lia.
  Qed.
  Lemma ne_grows : grows m m'.
  Proof.
    constructor; [rewrite ne_size; lia|]. intros q Q. destruct (ne_old q Q) as (A & B & C & D & E).
    rewrite A, B, C, E. repeat split; auto. eauto.
  Qed.
  Lemma ne_wf : wf m'.
  Proof.
    constructor.
    - rewrite ne_size. destruct (wf_root m W) as (R1 & R2). split; [lia|]. now destruct (ne_old 0 R1) as (-> & _).
    - intros q. rewrite ne_size. intros Q. destruct (Nat.eq_dec q (nodes m)) as [->|NQ].
      + exists p. rewrite ne_new. cbn. split; auto. split; auto. rewrite ne_edges, Nat.eqb_refl. apply in_app_iff. right. now left.
      + destruct (wf_up m W q) as (r & R & P & I); [lia|]. exists r. destruct (ne_old q) as (-> & _); [lia|].
        split; auto. split; auto. rewrite ne_edges. apply in_app_iff. now left.
    - intros q e I. rewrite ne_edges in I. rewrite ne_size. apply in_app_iff in I as [I|I].
      + apply (wf_down m W) in I as (I & P). destruct (ne_old e) as (-> & _); [lia|]. split; [lia|auto].
      + destruct (Nat.eqb q p) eqn:E; [|easy]. apply Nat.eqb_eq in E; subst q. destruct I as [<-|[]]. rewrite ne_new. cbn. split; [lia|auto].
    - intros q. rewrite ne_edges, map_app.
      assert (SM : map (fun e => n_name (node m' e)) (n_edges (node m q)) = map (fun e => n_name (node m e)) (n_edges (node m q))).
      { apply map_ext_in. intros e I. apply (wf_down m W) in I as (I & _). apply ne_old. lia. }
      rewrite SM. destruct (Nat.eqb q p) eqn:E; cbn [map]; [|rewrite app_nil_r; apply W].
      apply Nat.eqb_eq in E; subst q. rewrite ne_new. cbn [n_name].
      assert (NI : ~ In s (map (fun e => n_name (node m e)) (n_edges (node m p)))).
      { intros I. apply in_map_iff in I as (e & E & I). assert (H := find_none _ _ N _ I). cbn in H.
        rewrite E, String.eqb_refl in H. discriminate. }
      apply (NoDup_Add (a := s) (l := map (fun e => n_name (node m e)) (n_edges (node m p)))).
      { rewrite <- (app_nil_r (map _ _)) at 1. apply Add_app. }
      split; [apply W|exact NI].
  Qed.
  Lemma ne_edge : edge m' p s = Some (nodes m).
  Proof.
    replace s with (n_name (node m' (nodes m))) at 1 by now rewrite ne_new. apply edge_in; [apply ne_wf|].
    rewrite ne_edges, Nat.eqb_refl. apply in_app_iff. right. now left.
  Qed.
  (** The only path that is new. *)
  Lemma ne_found lp l q : findSteps m 0 lp = Some p -> findSteps m' 0 l = Some q ->
    findSteps m 0 l = Some q \/ l = (lp ++ [s])%list /\ q = nodes m.
  Proof.
    intros F. revert q. induction l as [|s' l IH] using rev_ind; intros q E; [now left|].
    rewrite findSteps_snoc in E. destruct (findSteps m' 0 l) as [q1|] eqn:Q1; [|discriminate].
    destruct (IH q1 eq_refl) as [F1|(-> & ->)].
    - rewrite findSteps_snoc, F1. apply edge_some in E as (I & NM). rewrite ne_edges in I. apply in_app_iff in I as [I|I].
      + left. assert (QL := proj1 (wf_down m W _ _ I)). destruct (ne_old q) as (_ & NE & _); [lia|]. rewrite <- NM, NE. now apply edge_in.
      + destruct (Nat.eqb q1 p) eqn:EQ; [|easy]. apply Nat.eqb_eq in EQ; subst q1. destruct I as [<-|[]].
        rewrite ne_new in NM. cbn in NM. subst s'. right. split; auto. f_equal. now apply (found_inj m l lp p W).
    - exfalso. apply edge_some in E as (I & _). rewrite ne_new in I. easy.
  Qed.
End NewEdge.

(** *** Adding a path *)
Lemma add_spec steps : forall m p lp m' q,
  wf m -> findSteps m 0 lp = Some p -> addSteps m p steps = (m', q) ->
  wf m' /\ grows m m' /\ findSteps m' 0 (lp ++ steps) = Some q /\
  (forall l r, findSteps m' 0 l = Some r -> findSteps m 0 l = Some r \/ exists x, (lp ++ steps = l ++ x)%list) /\
  (forall r, nodes m <= r < nodes m' -> n_package (node m' r) = None /\ n_files (node m' r) = []) /\
  (forall r, r < nodes m -> n_package (node m' r) = n_package (node m r) /\ n_files (node m' r) = n_files (node m r)).
Proof.
  induction steps as [|s steps IH]; intros m p lp m' q W F E.
  { injection E as <- <-. rewrite app_nil_r. split; auto. split; [apply grows_refl|]. split; auto. split; auto. split; [lia|auto]. }
  assert (L : p < nodes m) by (apply (found_node m lp p W F)).
  cbn [addSteps] in E. destruct (edge m p s) as [r|] eqn:R.
  - apply (IH m r (lp ++ [s])%list) in E; auto; [|now rewrite findSteps_snoc, F].
    destruct E as (W' & G & F' & U & V1 & V2). rewrite <- app_assoc in F'. split; auto. split; auto. split; auto. split; auto.
    intros l r' H. destruct (U l r' H) as [|(x & X)]; auto. right. exists x. now rewrite <- app_assoc in X.
  - assert (W1 := ne_wf m p s W L R). assert (G1 := ne_grows m p s L).
    apply (IH (newEdge m p s) (nodes m) (lp ++ [s])%list) in E; auto.
    2:{ rewrite findSteps_snoc, (grows_found m _ 0 lp p W G1 F). now apply ne_edge. }
    destruct E as (W' & G & F' & U & V1 & V2). rewrite <- app_assoc in F'. split; auto.
    split; [now apply (grows_trans _ (newEdge m p s))|]. split; auto. split; [|split].
    + intros l r' H. destruct (U l r' H) as [X|(x & X)]; [|right; exists x; now rewrite <- app_assoc in X].
      destruct (ne_found m p s W L lp l r' F X) as [|(-> & ->)]; auto.
      right. exists steps. now rewrite <- app_assoc.
    + intros r' (H1 & H2). rewrite ne_size in V1, V2 by auto. destruct (Nat.eq_dec r' (nodes m)) as [->|NR].
      * destruct (V2 (nodes m)) as (-> & ->); [lia|]. now rewrite ne_new by auto.
      * apply V1. lia.
    + intros r' H. rewrite ne_size in V2 by auto. destruct (V2 r') as (-> & ->); [lia|]. destruct (ne_old m p s r' H) as (_ & _ & -> & -> & _). auto.
Qed.

(** ** Nodes changed in place *)
Lemma set_shape m p pk fs : wf m -> p < nodes m ->
  let n := node m p in
  let m' := set_nth p (mkNode (n_parent n) (n_name n) (n_edges n) pk fs) m in
  wf m' /\ (forall l, findSteps m' 0 l = findSteps m 0 l) /\ nodes m' = nodes m /\
  (forall q, n_parent (node m' q) = n_parent (node m q) /\ n_name (node m' q) = n_name (node m q) /\ n_edges (node m' q) = n_edges (node m q)) /\
  (forall q, q <> p -> node m' q = node m q) /\ n_package (node m' p) = pk /\ n_files (node m' p) = fs.
Proof.
  intros W L n m'.
  assert (S : forall q, n_parent (node m' q) = n_parent (node m q) /\ n_name (node m' q) = n_name (node m q) /\ n_edges (node m' q) = n_edges (node m q)).
  { intros q. unfold m'. destruct (Nat.eq_dec p q) as [<-|N]; [rewrite node_set_same by auto; auto|rewrite node_set_other by auto; auto]. }
  assert (SZ : nodes m' = nodes m) by (unfold m'; apply set_nth_length).
  assert (E : forall q s, edge m' q s = edge m q s).
  { intros q s. unfold edge. destruct (S q) as (_ & _ & ->). apply find_ext. intros x _. now destruct (S x) as (_ & -> & _). }
  split; [|split; [|split; [|split; [|split; [|split]]]]]; auto.
  - destruct W as [[R1 R2] U D NM]. constructor.
    + rewrite SZ. destruct (S 0) as (-> & _). auto.
    + intros q Q. rewrite SZ in Q. destruct (U q Q) as (r & H & P & I). exists r. destruct (S q) as (-> & _). destruct (S r) as (_ & _ & ->). auto.
    + intros q e I. destruct (S q) as (_ & _ & X). rewrite X in I. rewrite SZ. destruct (S e) as (-> & _). auto.
    + intros q. destruct (S q) as (_ & _ & ->). rewrite (map_ext _ (fun e => n_name (node m e))); auto. intros e. apply S.
  - intros l. assert (G : forall p0, findSteps m' p0 l = findSteps m p0 l); [|apply G].
    induction l as [|s l IH]; intros p0; auto. cbn. rewrite E. destruct (edge m p0 s); auto.
  - intros q N. unfold m'. now rewrite node_set_other by auto.
  - unfold m'. now rewrite node_set_same.
  - unfold m'. now rewrite node_set_same.
Qed.

(** ** Whole calls *)

(** The paths in the tree are the beginnings of those added. *)
Definition only (m : manager) (A : list string) (m' : manager) : Prop :=
  forall l r, l <> [] -> findSteps m' 0 l = Some r ->
  findSteps m 0 l = Some r \/ exists a x, In a A /\ (split "/" a = l ++ x)%list.

Definition done (m : manager) (A : list string) (m' : manager) : Prop :=
  wf m' /\ grows m m' /\ only m A m' /\ forall a, In a A -> exists q, findSteps m' 0 (split "/" a) = Some q.

Lemma done_refl m : wf m -> done m [] m.
Proof. intros W. split; auto. split; [apply grows_refl|]. split; [intros l r _ H; now left|easy]. Qed.
Lemma done_trans m1 A m2 B m3 : done m1 A m2 -> done m2 B m3 -> done m1 (A ++ B) m3.
Proof.
  intros (W1 & G1 & O1 & F1) (W2 & G2 & O2 & F2). split; auto. split; [now apply (grows_trans _ m2)|]. split.
  - intros l r N H. destruct (O2 l r N H) as [X|(a & x & I & E)].
    + destruct (O1 l r N X) as [|(a & x & I & E)]; auto. right. exists a, x. rewrite in_app_iff. auto.
    + right. exists a, x. rewrite in_app_iff. auto.
  - intros a I. apply in_app_iff in I as [I|I]; auto. destruct (F1 a I) as (q & Q). exists q. now apply (grows_found m2).
Qed.

Lemma addPackage_spec m path m' q : wf m -> AddPackage m path = (m', q) ->
  done m [path] m' /\ findSteps m' 0 (split "/" path) = Some q /\
  (forall r, nodes m <= r < nodes m' -> n_package (node m' r) = None /\ n_files (node m' r) = []) /\
  (forall r, r < nodes m -> n_package (node m' r) = n_package (node m r) /\ n_files (node m' r) = n_files (node m r)).
Proof.
  intros W E. destruct (add_spec _ m 0 [] m' q W eq_refl E) as (W' & G & F & U & V1 & V2). cbn [app] in *.
  split; [|auto]. split; auto. split; auto. split.
  - intros l r _ H. destruct (U l r H) as [|(x & X)]; auto. right. exists path, x. split; [now left|auto].
  - intros a [<-|[]]. eauto.
Qed.

Lemma Find_steps m path : wf m -> Find m path = findSteps m 0 (split "/" path).
Proof.
  intros W. unfold Find. destruct (findSteps m 0 (split "/" path)) as [q|] eqn:F; auto.
  destruct (Nat.eqb q 0) eqn:E; auto. apply Nat.eqb_eq in E; subst. apply found_node in F as (_ & F); auto.
  exfalso. apply (split_not_nil "/" path). now apply F.
Qed.

Lemma findOrAdd_spec m path m' q : wf m -> FindOrAdd m path = (m', q) ->
  done m [path] m' /\ findSteps m' 0 (split "/" path) = Some q /\
  (forall r, nodes m <= r < nodes m' -> n_package (node m' r) = None /\ n_files (node m' r) = []) /\
  (forall r, r < nodes m -> n_package (node m' r) = n_package (node m r) /\ n_files (node m' r) = n_files (node m r)).
Proof.
  intros W E. unfold FindOrAdd in E. destruct (Find m path) as [p|] eqn:F; [|now apply addPackage_spec].
  injection E as <- <-. rewrite Find_steps in F by auto. split; [|split; [auto|split; [lia|auto]]].
  split; auto. split; [apply grows_refl|]. split; [intros l r _ H; now left|]. intros a [<-|[]]. eauto.
Qed.

Lemma mapImports_spec is : forall m m' l, wf m -> MapImportSpecs m is = (m', l) ->
  done m (map (trim quote) is) m' /\
  Forall2 (fun i q => findSteps m' 0 (split "/" (trim quote i)) = Some q) is l /\
  (forall r, nodes m <= r < nodes m' -> n_package (node m' r) = None /\ n_files (node m' r) = []) /\
  (forall r, r < nodes m -> n_package (node m' r) = n_package (node m r) /\ n_files (node m' r) = n_files (node m r)).
Proof.
  induction is as [|i is IH]; intros m m' l W E; cbn [MapImportSpecs] in E.
  { injection E as <- <-. split; [now apply done_refl|]. split; [constructor|]. split; [lia|auto]. }
  destruct (FindOrAdd m (trim quote i)) as [m1 p] eqn:E1. destruct (MapImportSpecs m1 is) as [m2 l2] eqn:E2. injection E as <- <-.
  destruct (findOrAdd_spec _ _ _ _ W E1) as (D1 & F1 & N1 & O1). destruct (IH m1 m2 l2 (proj1 D1) E2) as (D2 & F2 & N2 & O2).
  split; [exact (done_trans _ [trim quote i] _ _ _ D1 D2)|]. destruct D1 as (W1 & G1 & _), D2 as (W2 & G2 & _).
  assert (S1 := gr_size _ _ G1). assert (S2 := gr_size _ _ G2).
  split; [constructor; auto; now apply (grows_found m1)|]. split.
  - intros r (H1 & H2). destruct (Nat.lt_ge_cases r (nodes m1)) as [H|H]; [|apply N2; lia].
    destruct (O2 r H) as (-> & ->). apply N1. lia.
  - intros r H. destruct (O2 r) as (-> & ->); [lia|]. now apply O1.
Qed.

Lemma shape_done m p pk fs : wf m -> p < nodes m ->
  (n_package (node m p) = None \/ n_package (node m p) = pk) ->
  let n := node m p in
  done m [] (set_nth p (mkNode (n_parent n) (n_name n) (n_edges n) pk fs) m).
Proof.
  intros W L K n. destruct (set_shape m p pk fs W L) as (W' & F & S & N & O & P & _). fold n in W', F, S, N, O, P.
  split; auto. split; [|split; [|easy]].
  - constructor; [lia|]. intros q Q. destruct (N q) as (-> & -> & ->). repeat split; auto; [exists []; now rewrite app_nil_r|].
    intros k. destruct (Nat.eq_dec q p) as [->|NQ]; [rewrite P; destruct K as [K|K]; rewrite K; easy|now rewrite O].
  - intros l r _ H. left. now rewrite <- F.
Qed.

(** The imports of the files of a loaded package, found. *)
Definition imports_found (m : manager) (files : list (list string)) (fs : list (list nat)) : Prop :=
  Forall2 (Forall2 (fun i q => findSteps m 0 (split "/" (trim quote i)) = Some q)) files fs.
Lemma imports_grow m m' files fs : wf m -> grows m m' -> imports_found m files fs -> imports_found m' files fs.
Proof.
  intros W G H. unfold imports_found in *. induction H as [|f fl files fs H _ IH]; constructor; auto.
  induction H; constructor; auto. now apply (grows_found m).
Qed.

Lemma addFiles_spec files : forall m p m', wf m -> p < nodes m -> addFiles m p files = m' ->
  done m (map (trim quote) (List.concat files)) m' /\
  (exists fs, n_files (node m' p) = (n_files (node m p) ++ fs)%list /\ imports_found m' files fs) /\
  n_package (node m' p) = n_package (node m p) /\
  (forall r, nodes m <= r < nodes m' -> n_package (node m' r) = None /\ n_files (node m' r) = []) /\
  (forall r, r < nodes m -> r <> p -> n_package (node m' r) = n_package (node m r) /\ n_files (node m' r) = n_files (node m r)).
Proof.
  induction files as [|f files IH]; intros m p m' W L E; cbn [addFiles] in E.
  { subst m'. split; [now apply done_refl|]. split; [exists []; split; [now rewrite app_nil_r|constructor]|]. split; auto. split; [lia|auto]. }
  destruct (MapImportSpecs m f) as [m1 is] eqn:E1. destruct (mapImports_spec _ _ _ _ W E1) as (D1 & F1 & N1 & O1).
  assert (W1 := proj1 D1). assert (S1 := gr_size _ _ (proj1 (proj2 D1))). assert (L1 : p < nodes m1) by lia.
  set (m2 := set_nth p _ m1) in E.
  assert (D2 : done m1 [] m2) by (apply shape_done; auto).
  destruct (set_shape m1 p (n_package (node m1 p)) (n_files (node m1 p) ++ [is]) W1 L1) as (W2 & K2 & S2 & _ & O2 & P2 & Q2).
  fold m2 in W2, K2, S2, O2, P2, Q2.
  destruct (IH m2 p m' W2) as (D3 & (fs & Q3 & I3) & P3 & N3 & O3); [lia|auto|].
  destruct (O1 p L) as (PP & QQ). assert (S3 := gr_size _ _ (proj1 (proj2 D3))).
  split; [|split; [|split; [|split]]].
  - cbn [List.concat]. rewrite map_app. apply (done_trans _ _ m1); auto. exact (done_trans _ [] m2 _ _ D2 D3).
  - exists (is :: fs). split; [now rewrite Q3, Q2, QQ, <- app_assoc|]. constructor; auto.
    assert (G13 : grows m1 m') by (apply (grows_trans _ m2); [apply D2|apply D3]).
    clear -F1 G13 W1. induction F1; constructor; auto. now apply (grows_found m1).
  - now rewrite P3, P2.
  - intros r (H1 & H2). destruct (Nat.lt_ge_cases r (nodes m2)) as [H|H]; [|apply N3; lia].
    destruct (O3 r H) as (-> & ->); [lia|]. rewrite O2 by lia. apply N1. lia.
  - intros r H NR. destruct (O3 r) as (-> & ->); auto; [lia|]. rewrite O2 by auto. now apply O1.
Qed.

Lemma get_spec loaders disk fuel wd m cache p m' cache' pkg :
  wf m -> p < nodes m -> Get loaders disk fuel wd m cache p = Ok (m', cache', pkg) ->
  n_package (node m' p) = Some pkg /\
  match n_package (node m p) with
  | Some k => m' = m /\ cache' = cache /\ k = pkg
  | None => done m (imported pkg) m' /\
            (exists fs, n_files (node m' p) = (n_files (node m p) ++ fs)%list /\ imports_found m' pkg fs) /\
            (forall r, nodes m <= r < nodes m' -> n_package (node m' r) = None /\ n_files (node m' r) = []) /\
            (forall r, r < nodes m -> r <> p -> n_package (node m' r) = n_package (node m r) /\ n_files (node m' r) = n_files (node m r)) /\
            exists path, Path fuel m p = Ok path /\ LoadPackage disk (loadedPath loaders path) wd cache = Some (pkg, cache')
  end.
Proof.
  intros W L E. unfold Get in E. destruct (n_package (node m p)) as [k|] eqn:K.
  { injection E as <- <- <-. auto. }
  destruct (Path fuel m p) as [path| | |] eqn:PA; try discriminate. cbn [bind] in E.
  destruct (LoadPackage _ _ _ _) as [[pkg0 c0]|] eqn:LP; [|discriminate]. injection E as E <- <-.
  set (m1 := set_nth p _ m) in E.
  assert (D1 : done m [] m1) by (apply shape_done; auto).
  destruct (set_shape m p (Some pkg0) (n_files (node m p)) W L) as (W1 & K1 & S1 & _ & O1 & P1 & Q1). fold m1 in W1, K1, S1, O1, P1, Q1.
  destruct (addFiles_spec pkg0 m1 p m' W1) as (D2 & (fs & Q2 & I2) & P2 & N2 & O2); [lia|auto|].
  rewrite S1 in *. split; [congruence|]. split; [exact (done_trans _ [] m1 _ _ D1 D2)|]. split; [exists fs; split; [congruence|auto]|].
  split; [auto|]. split; [intros r H NR; destruct (O2 r H NR) as (-> & ->); now rewrite O1|]. eauto.
Qed.

Lemma wf_new : wf NewPackageManager.
Proof.
  constructor; [cbn; auto| | |].
  - intros p (H1 & H2). cbn in H2. lia.
  - intros p e I. destruct p as [|[|p]]; easy.
  - intros p. destruct p as [|[|p]]; constructor.
Qed.
Lemma called_done m A m' : wf m -> called m A m' -> done m A m'.
Proof.
  intros W C. destruct C as [p m' q E|p m' q E|loaders disk fuel wd cache p m' cache' pkg L E].
  - now apply addPackage_spec in E.
  - now apply findOrAdd_spec in E.
  - apply get_spec in E as (_ & E); auto. destruct (n_package (node m p)); [|apply E]. destruct E as (-> & _). now apply done_refl.
Qed.
Lemma later_done m A m' : wf m -> later m A m' -> done m A m'.
Proof.
  intros W H. induction H as [|l m1 a m2 H IH C]; [now apply done_refl|].
  apply (done_trans _ _ m1); auto. apply called_done; auto. apply IH.
Qed.

(** ** Paths as text *)
Lemma at_or_above_split p a : at_or_above p a <-> exists x, (split "/" a = split "/" p ++ x)%list.
Proof.
  split.
  - intros [->|(r & ->)]; [exists []; now rewrite app_nil_r|]. exists (split "/" r). apply (split_sep "/").
  - intros (x & E). assert (J := join_split "/" a). rewrite E in J. destruct x as [|y x].
    + rewrite app_nil_r in J. left. rewrite <- J. apply join_split.
    + right. exists (join "/" (y :: x)). assert (H : forall l, l <> [] -> join "/" (l ++ y :: x) = join "/" l ++ "/" ++ join "/" (y :: x)).
      { induction l as [|b [|c l] IH]; intros N; [congruence|reflexivity|]. cbn [app] in *. rewrite !join_cons, IH by discriminate.
        now rewrite !append_assoc. }
      rewrite <- J. change (str1 "/") with "/". rewrite H by apply split_not_nil. f_equal. apply (join_split "/").
Qed.

Lemma pathUp_spec m l p fuel acc : wf m -> findSteps m 0 l = Some p -> p < fuel -> acc <> "" -> pathUp fuel m p acc = Ok (join "/" (l ++ [acc])).
Proof.
  intros W. revert p fuel acc. induction l as [|s l IH] using rev_ind; intros p fuel acc F LT NE; destruct fuel as [|fuel]; try lia; cbn [pathUp].
  { injection F as <-. now rewrite (proj2 (wf_root m W)). }
  rewrite findSteps_snoc in F. destruct (findSteps m 0 l) as [q|] eqn:Q; [|discriminate]. apply edge_some in F as (I & NM).
  apply (wf_down m W) in I as (I & P). rewrite P, NM. apply String.eqb_neq in NE. rewrite NE.
  rewrite (IH q); auto; [|lia|now destruct s].
  f_equal. rewrite <- app_assoc. cbn [app]. clear. induction l as [|b [|c l] IH]; auto. cbn [app] in *. rewrite !join_cons. now rewrite IH.
Qed.

Lemma Path_spec m l s p fuel : wf m -> findSteps m 0 (l ++ [s]) = Some p -> p < fuel -> s <> "" -> Path fuel m p = Ok (join "/" (l ++ [s])).
Proof.
  intros W F LT NE. unfold Path. destruct fuel as [|fuel]; [lia|]. cbn [pathUp String.eqb].
  rewrite findSteps_snoc in F. destruct (findSteps m 0 l) as [q|] eqn:Q; [|discriminate]. apply edge_some in F as (I & NM).
  apply (wf_down m W) in I as (I & P). rewrite P, NM. apply pathUp_spec; auto. lia.
Qed.

(** An empty last part is forgotten. *)
Lemma Path_empty m l p q fuel : wf m -> findSteps m 0 (l ++ [""]) = Some p -> findSteps m 0 l = Some q -> Path (S fuel) m p = Path fuel m q.
Proof.
  intros W F Q. unfold Path. cbn [pathUp String.eqb]. rewrite findSteps_snoc, Q in F. apply edge_some in F as (I & NM).
  apply (wf_down m W) in I as (I & P). now rewrite P, NM.
Qed.

Lemma Path_total m p fuel : wf m -> p < nodes m -> p < fuel -> exists path, Path fuel m p = Ok path.
Proof.
  intros W. revert fuel. induction p as [p IH] using lt_wf_ind. intros fuel L LF. destruct (reachable m p W L) as (l & F).
  destruct (split_last_list l) as [->|(l' & s & ->)].
  { injection F as <-. destruct fuel; [lia|]. unfold Path. cbn. rewrite (proj2 (wf_root m W)). eauto. }
  destruct (String.eqb s "") eqn:E.
  - apply String.eqb_eq in E; subst s. assert (F' := F). rewrite findSteps_snoc in F'. destruct (findSteps m 0 l') as [q|] eqn:Q; [|discriminate].
    apply edge_some in F' as (I & _). apply (wf_down m W) in I as (I & _). destruct fuel as [|fuel]; [lia|].
    rewrite (Path_empty m l' p q fuel W F Q). apply IH; lia.
  - apply String.eqb_neq in E. exists (join "/" (l' ++ [s])). now apply Path_spec.
Qed.

Lemma loadedPath_resolves path loaders : resolves path loaders (loadedPath loaders path).
Proof. induction loaders as [|l r IH]; cbn [loadedPath]; [constructor|]. destruct (l path) eqn:E; [now constructor|now apply resolves_next]. Qed.

Lemma srev_app s : forall acc, srev s acc = srev s "" ++ acc.
Proof.
  induction s as [|c r IH]; intros acc; [reflexivity|]. cbn [srev]. rewrite (IH (String c acc)), (IH (String c "")), append_assoc. reflexivity.
Qed.
Lemma srev_append a b : srev (a ++ b) "" = srev b "" ++ srev a "".
Proof.
  induction a as [|c r IH]; [cbn [append srev]; now rewrite append_nil_r|]. cbn [append srev].
  now rewrite srev_app, IH, (srev_app r (String c "")), append_assoc.
Qed.
Lemma srev_srev s : srev (srev s "") "" = s.
Proof.
  induction s as [|c r IH]; [reflexivity|]. cbn [srev]. rewrite (srev_app r (String c "")), srev_append, IH. reflexivity.
Qed.
Lemma trim_left_free c s : has_char c s = false -> trim_left c s = s.
Proof. destruct s as [|d r]; [reflexivity|]. cbn. destruct (Ascii.eqb d c); [discriminate|reflexivity]. Qed.
Lemma trim_left_one c s : trim_left c (String c s) = trim_left c s.
Proof. cbn. now rewrite Ascii.eqb_refl. Qed.
Lemma has_char_app c a b : has_char c (a ++ b) = has_char c a || has_char c b.
Proof. induction a as [|d r IH]; [reflexivity|]. cbn. destruct (Ascii.eqb d c); auto. Qed.
Lemma has_char_srev c s : has_char c (srev s "") = has_char c s.
Proof.
  induction s as [|d r IH]; [reflexivity|]. cbn [srev]. rewrite (srev_app r (String d "")), has_char_app, IH. cbn.
  destruct (Ascii.eqb d c); [apply orb_true_r|now rewrite orb_false_r].
Qed.
Lemma trim_written path : has_char quote path = false -> trim quote (written path) = path.
Proof.
  intros H. unfold trim, written. change (str1 (ascii_of_nat 34) ++ path ++ str1 (ascii_of_nat 34)) with (String quote (path ++ str1 quote)).
  rewrite trim_left_one. destruct path as [|d r]; [reflexivity|].
  assert (T : trim_left quote (String d r ++ str1 quote) = String d r ++ str1 quote).
  { cbn [append trim_left]. cbn [has_char] in H. apply orb_false_iff in H as (H & _). now rewrite H. }
  rewrite T, srev_append. change (srev (str1 quote) "") with (str1 quote). cbn [append].
  change (str1 quote ++ srev (String d r) "") with (String quote (srev (String d r) "")). rewrite trim_left_one.
  rewrite trim_left_free by now rewrite has_char_srev. apply srev_srev.
Qed.
