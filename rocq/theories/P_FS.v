(** Lemmas about paths and file trees. *)
From Coq Require Import List String Ascii Bool ZArith Arith Lia Sorting.Sorted.
From Verif Require Import BaseStr BaseMap M_Types M_FS.
Import ListNotations.
Local Open Scope string_scope.

(** ** Prefixes *)

Lemma is_prefix_spec p q : is_prefix p q = true <-> exists r, q = (p ++ r)%list.
Proof.
  revert q; induction p as [|a p IH]; intros q; cbn [is_prefix].
  - split; [intros _; exists q|]; reflexivity || auto.
  - destruct q as [|b q].
    + split; [discriminate|intros (r & H); discriminate].
    + rewrite andb_true_iff, IH, String.eqb_eq. split.
      * intros (-> & r & ->). exists r. reflexivity.
      * intros (r & H). injection H as -> ->. split; [reflexivity|exists r; reflexivity].
Qed.

Lemma is_prefix_refl p : is_prefix p p = true.
Proof. apply is_prefix_spec. exists []. now rewrite app_nil_r. Qed.

Lemma is_prefix_app p r : is_prefix p (p ++ r) = true.
Proof. apply is_prefix_spec. exists r. reflexivity. Qed.

Lemma is_prefix_trans a b c : is_prefix a b = true -> is_prefix b c = true -> is_prefix a c = true.
Proof.
  intros H1 H2. apply is_prefix_spec in H1 as (r & ->). apply is_prefix_spec in H2 as (q & ->).
  rewrite <- app_assoc. apply is_prefix_app.
Qed.

Lemma is_prefix_antisym a b : is_prefix a b = true -> is_prefix b a = true -> a = b.
Proof.
  intros H1 H2. apply is_prefix_spec in H1 as (r & ->). apply is_prefix_spec in H2 as (q & H).
  assert (List.length (r ++ q) = 0).
  { apply (f_equal (@List.length _)) in H. rewrite !app_length in H. rewrite app_length. lia. }
  destruct r; [now rewrite app_nil_r|discriminate].
Qed.

(** Two prefixes of the same path are comparable. *)
Lemma is_prefix_total a b c : is_prefix a c = true -> is_prefix b c = true -> is_prefix a b = true \/ is_prefix b a = true.
Proof.
  revert b c; induction a as [|x a IH]; intros b c Ha Hb; [now left|].
  destruct b as [|y b]; [now right|]. destruct c as [|z c]; [discriminate|].
  cbn [is_prefix] in *. apply andb_true_iff in Ha as (Hx & Ha), Hb as (Hy & Hb).
  apply String.eqb_eq in Hx, Hy. subst. rewrite String.eqb_refl. cbn. eapply IH; eauto.
Qed.

Fixpoint after_prefix (p q : list string) : list string :=
  match p, q with
  | _ :: p', _ :: q' => after_prefix p' q'
  | _, _ => q
  end.

Lemma after_prefix_app p r : after_prefix p (p ++ r) = r.
Proof. induction p; simpl; auto. Qed.

(** ** What is at a place *)

Inductive kind (C : Type) := KFile (c : C) | KDir.
Arguments KFile {C} c.
Arguments KDir {C}.

Section Trees.
  Context {C : Type}.
  Implicit Types t : tree C.

  Definition kind_of (x : option (tree C)) : option (kind C) :=
    match x with
    | None => None
    | Some (File c) => Some (KFile c)
    | Some (Dir _) => Some KDir
    end.
  Definition kind_at (p : list string) t : option (kind C) := kind_of (get p t).

  Lemma get_app p q t : get (p ++ q) t = match get p t with Some t' => get q t' | None => None end.
  Proof.
    revert t; induction p as [|k p IH]; intros t; cbn [get app]; auto.
    destruct t as [c|es]; auto. destruct (mlookup k es); auto.
  Qed.

  Lemma kind_below p q t : kind_at (p ++ q) t <> None -> q <> [] -> kind_at p t = Some KDir.
  Proof.
    unfold kind_at. rewrite get_app. destruct (get p t) as [[c|es]|]; cbn; auto.
    - destruct q; [congruence|]. cbn. congruence.
    - congruence.
  Qed.

  Lemma kind_none_below p q t : kind_at p t = None -> kind_at (p ++ q) t = None.
  Proof. unfold kind_at. rewrite get_app. destruct (get p t) as [[c|es]|]; cbn; congruence. Qed.

  Lemma kind_file_below p q c t : kind_at p t = Some (KFile c) -> q <> [] -> kind_at (p ++ q) t = None.
  Proof.
    unfold kind_at. rewrite get_app. destruct (get p t) as [[c'|es]|]; cbn; try congruence.
    destruct q; cbn; congruence.
  Qed.

  Lemma mlookup_mremove {V} k k' (m : list (string * V)) :
    mlookup k (mremove k' m) = if String.eqb k' k then None else mlookup k m.
  Proof.
    unfold mremove. induction m as [|[a v] m IH]; cbn [filter mlookup].
    - now destruct (String.eqb k' k).
    - cbn [fst]. destruct (String.eqb a k') eqn:E; cbn [negb].
      + apply String.eqb_eq in E. subst. rewrite IH.
        destruct (String.eqb k' k); reflexivity.
      + cbn [mlookup]. rewrite IH.
        destruct (String.eqb a k) eqn:E'; auto. apply String.eqb_eq in E'. subst. now rewrite String.eqb_sym, E.
  Qed.

  (** *** put *)

  Lemma put_kind p x t t' q :
    put p x t = Some t' ->
    kind_at q t' = if is_prefix p q then match x with Some x' => kind_at (after_prefix p q) x' | None => None end
                   else kind_at q t.
  Proof.
    revert t t' q; induction p as [|k p IH]; intros t t' q; cbn [put].
    - intros ->. reflexivity.
    - destruct t as [c|es]; [discriminate|]. destruct p as [|k2 p].
      + injection 1 as <-. destruct q as [|j q]; [reflexivity|].
        cbn [is_prefix after_prefix]. rewrite andb_true_r. unfold kind_at. cbn [get].
        destruct x as [x'|].
        * rewrite mlookup_insert.
          destruct (String.eqb k j) eqn:E; reflexivity.
        * rewrite mlookup_mremove. destruct (String.eqb k j) eqn:E; reflexivity.
      + destruct (mlookup k es) as [u|] eqn:L; [|discriminate].
        destruct (put (k2 :: p) x u) as [u'|] eqn:P; [|discriminate].
        injection 1 as <-. destruct q as [|j q]; [reflexivity|].
        cbn [is_prefix after_prefix]. unfold kind_at at 1. cbn [get]. rewrite mlookup_insert.
        destruct (String.eqb k j) eqn:E; cbn [andb].
        * apply String.eqb_eq in E. subst j. specialize (IH _ _ q P). unfold kind_at in *.
          rewrite IH. cbn [get]. rewrite L. reflexivity.
        * reflexivity.
  Qed.

  (** The place a name is put in has to be a directory. *)
  Lemma put_some p k x t : kind_at p t = Some KDir -> exists t', put (p ++ [k]) x t = Some t'.
  Proof.
    revert t; induction p as [|j p IH]; intros t.
    - unfold kind_at. cbn. destruct t; [discriminate|]. intros _. eexists. reflexivity.
    - unfold kind_at. cbn [get]. destruct t as [c|es]; [discriminate|].
      destruct (mlookup j es) as [u|] eqn:L; [|discriminate]. intros H.
      destruct (IH u H) as (u' & P). cbn [put app]. rewrite L, P.
      destruct (p ++ [k])%list eqn:E; [now destruct p|]. eexists. reflexivity.
  Qed.

  Lemma put_parent p k x t t' : put (p ++ [k]) x t = Some t' -> kind_at p t = Some KDir.
  Proof.
    revert t t'; induction p as [|j p IH]; intros t t'; cbn [put app].
    - destruct t as [c|es]; [discriminate|]. reflexivity.
    - destruct t as [c|es]; [discriminate|].
      destruct (p ++ [k])%list eqn:E; [now destruct p|]. rewrite <- E in *.
      destruct (mlookup j es) as [u|] eqn:L; [|discriminate].
      destruct (put (p ++ [k]) x u) as [u'|] eqn:P; [|discriminate]. intros _.
      unfold kind_at. cbn [get]. rewrite L. eapply IH; eauto.
  Qed.

  (** Below where it was put one finds what was put. *)
  Lemma put_get p x t t' r : put p (Some x) t = Some t' -> get (p ++ r) t' = get r x.
  Proof.
    revert t t'; induction p as [|k p IH]; intros t t'; cbn [put app].
    - now injection 1 as <-.
    - destruct t as [c|es]; [discriminate|]. destruct p as [|k2 p].
      + injection 1 as <-. cbn [get app]. now rewrite mlookup_insert_eq.
      + destruct (mlookup k es) as [u|] eqn:L; [|discriminate].
        destruct (put (k2 :: p) (Some x) u) as [u'|] eqn:P; [|discriminate].
        injection 1 as <-. cbn [get]. rewrite mlookup_insert_eq. eapply IH; eauto.
  Qed.

  (** Elsewhere nothing changes. *)
  Lemma put_get_other p x t t' q :
    put p x t = Some t' -> is_prefix p q = false -> is_prefix q p = false -> get q t' = get q t.
  Proof.
    revert t t' q; induction p as [|k p IH]; intros t t' q; cbn [put].
    - discriminate.
    - destruct t as [c|es]; [discriminate|]. destruct q as [|j q]; [discriminate|].
      cbn [is_prefix]. destruct p as [|k2 p].
      + injection 1 as <-. destruct (String.eqb k j) eqn:E; cbn; [discriminate|intros _ _].
        destruct x; [rewrite mlookup_insert|rewrite mlookup_mremove]; now rewrite E.
      + destruct (mlookup k es) as [u|] eqn:L; [|discriminate].
        destruct (put (k2 :: p) x u) as [u'|] eqn:P; [|discriminate].
        injection 1 as <-. destruct (String.eqb k j) eqn:E; cbn [andb].
        * apply String.eqb_eq in E. subst j. rewrite String.eqb_refl. cbn [andb]. cbn [get]. rewrite mlookup_insert_eq, L. intros H1 H2. eapply IH; eauto.
        * intros _ _. cbn [get]. rewrite mlookup_insert. now rewrite E.
  Qed.

  (** *** Sorted directories *)

  Fixpoint sorted_tree t : Prop :=
    match t with
    | File _ => True
    | Dir es => msorted es /\ fold_right (fun kt acc => sorted_tree (snd kt) /\ acc) True es
    end.

  Lemma sorted_tree_dir es :
    sorted_tree (Dir es) <-> msorted es /\ Forall (fun kt => sorted_tree (snd kt)) es.
  Proof.
    cbn [sorted_tree]. apply and_iff_compat_l. induction es as [|a es IH]; cbn.
    - split; auto.
    - rewrite IH. split; [intros []; constructor; auto|inversion 1; auto].
  Qed.

  Lemma sorted_get p t u : sorted_tree t -> get p t = Some u -> sorted_tree u.
  Proof.
    revert t; induction p as [|k p IH]; intros t S; cbn [get].
    - now injection 1 as <-.
    - destruct t as [c|es]; [discriminate|]. destruct (mlookup k es) as [v|] eqn:L; [|discriminate].
      apply IH. apply sorted_tree_dir in S as (_ & F). rewrite Forall_forall in F.
      apply mlookup_In in L. exact (F _ L).
  Qed.

  Lemma Forall_minsert {V} (P : V -> Prop) k v (m : list (string * V)) :
    P v -> Forall (fun kv => P (snd kv)) m -> Forall (fun kv => P (snd kv)) (minsert k v m).
  Proof.
    intros Pv. induction m as [|[a b] m IH]; cbn [minsert]; intros H.
    - constructor; auto.
    - inversion H; subst. repeat match goal with |- context [if ?b then _ else _] => destruct b end;
      constructor; auto.
  Qed.

  Lemma mremove_sorted {V} k (m : list (string * V)) : msorted m -> msorted (mremove k m).
  Proof.
    unfold msorted, mkeys, mremove. induction m as [|[a v] m IH]; cbn; intros H; auto.
    inversion H as [|? ? S F]; subst. destruct (String.eqb a k); cbn; auto.
    constructor; auto. rewrite Forall_forall in *. intros x Hx. apply F.
    apply in_map_iff in Hx as (kv & <- & Hx). apply filter_In in Hx as (Hx & _). now apply in_map.
  Qed.

  Lemma Forall_mremove {V} (P : V -> Prop) k (m : list (string * V)) :
    Forall (fun kv => P (snd kv)) m -> Forall (fun kv => P (snd kv)) (mremove k m).
  Proof.
    rewrite !Forall_forall. intros H x Hx. apply filter_In in Hx as (Hx & _). auto.
  Qed.

  Lemma put_sorted p x t t' :
    put p x t = Some t' -> sorted_tree t -> (forall u, x = Some u -> sorted_tree u) -> sorted_tree t'.
  Proof.
    revert t t'; induction p as [|k p IH]; intros t t'; cbn [put].
    - intros ->. auto.
    - destruct t as [c|es]; [discriminate|]. rewrite sorted_tree_dir. destruct p as [|k2 p].
      + injection 1 as <-. intros (S & F) X. apply sorted_tree_dir. destruct x as [u|].
        * split; [now apply minsert_sorted|]. apply Forall_minsert; auto.
        * split; [now apply mremove_sorted|]. now apply Forall_mremove.
      + destruct (mlookup k es) as [u|] eqn:L; [|discriminate].
        destruct (put (k2 :: p) x u) as [u'|] eqn:P; [|discriminate].
        injection 1 as <-. intros (S & F) X. apply sorted_tree_dir.
        split; [now apply minsert_sorted|]. apply Forall_minsert; auto.
        eapply IH; eauto. rewrite Forall_forall in F. apply mlookup_In in L. exact (F _ L).
  Qed.

  (** *** The calls *)

  Lemma through_file_spec p t :
    through_file p t = true <-> exists q r c, p = (q ++ r)%list /\ r <> [] /\ kind_at q t = Some (KFile c).
  Proof.
    revert t; induction p as [|k p IH]; intros t; cbn [through_file].
    - split; [discriminate|]. intros (q & r & c & E & N & _). destruct q, r; try discriminate. congruence.
    - destruct t as [c|es].
      + split; auto. intros _. exists [], (k :: p), c. repeat split; discriminate.
      + destruct (mlookup k es) as [u|] eqn:L.
        * rewrite IH. split; intros (q & r & c & E & N & K).
          -- exists (k :: q), r, c. subst. repeat split; auto. unfold kind_at. cbn [get]. now rewrite L.
          -- destruct q as [|j q]; [discriminate|]. injection E as -> ->. exists q, r, c. repeat split; auto.
             unfold kind_at in K. cbn [get] in K. now rewrite L in K.
        * split; [discriminate|]. intros (q & r & c & E & N & K).
          destruct q as [|j q]; [discriminate|]. injection E as -> ->. unfold kind_at in K. cbn [get] in K.
          now rewrite L in K.
  Qed.

  Lemma split_last (p : list string) : p = [] \/ exists q k, p = (q ++ [k])%list.
  Proof. destruct p as [|a p] using rev_ind; eauto. Qed.

  Lemma mkdir_some p k t :
    kind_at (p ++ [k]) t = None -> kind_at p t = Some KDir -> exists t', mkdir (p ++ [k]) t = Some t'.
  Proof.
    intros H1 H2. unfold mkdir. unfold kind_at in H1. destruct (get (p ++ [k]) t) as [[]|]; try discriminate.
    now apply put_some.
  Qed.

  Lemma mkdir_spec p t t' :
    mkdir p t = Some t' ->
    kind_at p t = None /\
    (forall q, kind_at q t' = if is_prefix p q then (if is_prefix q p then Some KDir else None) else kind_at q t).
  Proof.
    unfold mkdir. destruct (get p t) eqn:G; [discriminate|]. intros P. split.
    - unfold kind_at. now rewrite G.
    - intros q. rewrite (put_kind _ _ _ _ _ P). destruct (is_prefix p q) eqn:E; auto.
      apply is_prefix_spec in E as (r & ->). rewrite after_prefix_app. destruct r.
      + now rewrite app_nil_r, is_prefix_refl.
      + replace (is_prefix (p ++ s :: r) p) with false; [reflexivity|].
        symmetry. apply not_true_is_false. intros H. apply is_prefix_spec in H as (x & H).
        apply (f_equal (@List.length _)) in H. rewrite !app_length in H. cbn in H. lia.
  Qed.

  Lemma mkdir_parent p k t t' : mkdir (p ++ [k]) t = Some t' -> kind_at p t = Some KDir.
  Proof. unfold mkdir. destruct (get _ t); [discriminate|]. apply put_parent. Qed.

  Lemma mkdir_sorted p t t' : mkdir p t = Some t' -> sorted_tree t -> sorted_tree t'.
  Proof.
    unfold mkdir. destruct (get p t); [discriminate|]. intros P S. eapply put_sorted; eauto.
    intros u [= <-]. cbn. split; [apply msorted_nil|auto].
  Qed.

  Lemma mkdir_all_spec p t t' :
    mkdir_all p t = Some t' ->
    forall q, kind_at q t' = if is_prefix q p then Some KDir else kind_at q t.
  Proof.
    revert t t'; induction p as [|k p IH]; intros t t'; destruct t as [c|es]; cbn [mkdir_all]; try discriminate.
    - injection 1 as <-. intros [|j q]; reflexivity.
    - destruct (mkdir_all p _) as [u|] eqn:M; [|discriminate]. injection 1 as <-. specialize (IH _ _ M).
      intros [|j q]; [reflexivity|]. cbn [is_prefix]. unfold kind_at. cbn [get]. rewrite mlookup_insert.
      rewrite (String.eqb_sym j k). destruct (String.eqb k j) eqn:E; cbn [andb]; [|reflexivity].
      apply String.eqb_eq in E. subst j. specialize (IH q). unfold kind_at in IH. rewrite IH.
      destruct (is_prefix q p) eqn:Q; [reflexivity|]. destruct (mlookup k es); auto.
      destruct q; [discriminate|reflexivity].
  Qed.

  Lemma mkdir_all_some p t :
    (forall q c, is_prefix q p = true -> kind_at q t <> Some (KFile c)) -> exists t', mkdir_all p t = Some t'.
  Proof.
    revert t; induction p as [|k p IH]; intros t H; destruct t as [c|es].
    - now destruct (H [] c).
    - eexists. reflexivity.
    - now destruct (H [] c).
    - cbn [mkdir_all]. destruct (IH (match mlookup k es with Some t' => t' | None => Dir [] end)) as (u & ->).
      + intros q c Q K. destruct (mlookup k es) as [u|] eqn:L.
        * apply (H (k :: q) c); [cbn; now rewrite String.eqb_refl|]. unfold kind_at. cbn [get]. now rewrite L.
        * destruct q; discriminate K.
      + eexists. reflexivity.
  Qed.

  Lemma mkdir_all_none p t q c :
    is_prefix q p = true -> kind_at q t = Some (KFile c) -> mkdir_all p t = None.
  Proof.
    revert t q; induction p as [|k p IH]; intros t q Q K.
    - destruct q; [|discriminate]. unfold kind_at in K. cbn in K. destruct t; [reflexivity|discriminate].
    - cbn [mkdir_all]. destruct t as [|es]; auto. destruct q as [|j q]; [discriminate|].
      cbn [is_prefix] in Q. apply andb_true_iff in Q as (E & Q). apply String.eqb_eq in E. subst j.
      unfold kind_at in K. cbn [get] in K. destruct (mlookup k es) as [u|] eqn:L; [|discriminate].
      now rewrite (IH u q Q K).
  Qed.

  Lemma mkdir_all_sorted p t t' : mkdir_all p t = Some t' -> sorted_tree t -> sorted_tree t'.
  Proof.
    revert t t'; induction p as [|k p IH]; intros t t'; destruct t as [c|es]; cbn [mkdir_all]; try discriminate.
    - now injection 1 as <-.
    - destruct (mkdir_all p _) as [u|] eqn:M; [|discriminate]. injection 1 as <-.
      rewrite sorted_tree_dir. intros (S & F). apply sorted_tree_dir. split; [now apply minsert_sorted|].
      apply Forall_minsert; auto. eapply IH; eauto. destruct (mlookup k es) eqn:L.
      + rewrite Forall_forall in F. apply mlookup_In in L. exact (F _ L).
      + cbn. split; [apply msorted_nil|auto].
  Qed.

  Lemma remove_all_spec p t t' :
    p <> [] -> remove_all p t = Some t' ->
    forall q, kind_at q t' = if is_prefix p q then None else kind_at q t.
  Proof.
    intros N. unfold remove_all. destruct (through_file p t); [discriminate|].
    destruct (get p t) eqn:G.
    - intros P q. rewrite (put_kind _ _ _ _ _ P). reflexivity.
    - injection 1 as <-. intros q. destruct (is_prefix p q) eqn:E; auto.
      apply is_prefix_spec in E as (r & ->). apply kind_none_below. unfold kind_at. now rewrite G.
  Qed.

  Lemma remove_all_some p k t :
    kind_at p t = Some KDir -> exists t', remove_all (p ++ [k]) t = Some t'.
  Proof.
    intros K. unfold remove_all. destruct (through_file (p ++ [k]) t) eqn:T.
    - apply through_file_spec in T as (q & r & c & E & N & F). exfalso.
      destruct (split_last r) as [->|(r' & j & ->)]; [congruence|].
      rewrite app_assoc in E. apply app_inj_tail in E as (-> & <-).
      destruct r' as [|a r']; [rewrite app_nil_r in K; congruence|].
      rewrite (kind_file_below q (a :: r') c t F) in K; discriminate.
    - destruct (get (p ++ [k]) t); [now apply put_some|eauto].
  Qed.

  Lemma remove_all_sorted p t t' : p <> [] -> remove_all p t = Some t' -> sorted_tree t -> sorted_tree t'.
  Proof.
    unfold remove_all. destruct (through_file p t); [discriminate|]. destruct (get p t).
    - intros _ P S. eapply put_sorted; eauto. discriminate.
    - now injection 2 as <-.
  Qed.

  Lemma create_spec e p t t' :
    create e p t = Some t' ->
    kind_at p t <> Some KDir /\
    (forall q, kind_at q t' = if is_prefix p q then (if is_prefix q p then Some (KFile e) else None) else kind_at q t).
  Proof.
    unfold create. intros H. assert (put p (Some (File e)) t = Some t' /\ kind_at p t <> Some KDir) as (P & K).
    { unfold kind_at. destruct (get p t) as [[]|]; cbn; try discriminate; split; auto; discriminate. }
    split; auto. intros q. rewrite (put_kind _ _ _ _ _ P). destruct (is_prefix p q) eqn:E; auto.
    apply is_prefix_spec in E as (r & ->). rewrite after_prefix_app. destruct r.
    - now rewrite app_nil_r, is_prefix_refl.
    - replace (is_prefix (p ++ s :: r) p) with false; [reflexivity|].
      symmetry. apply not_true_is_false. intros H'. apply is_prefix_spec in H' as (x & H').
      apply (f_equal (@List.length _)) in H'. rewrite !app_length in H'. cbn in H'. lia.
  Qed.

  Lemma create_some e p k t :
    kind_at (p ++ [k]) t <> Some KDir -> kind_at p t = Some KDir -> exists t', create e (p ++ [k]) t = Some t'.
  Proof.
    intros H1 H2. unfold create. unfold kind_at in H1.
    destruct (get (p ++ [k]) t) as [[]|]; try now apply put_some. cbn in H1. congruence.
  Qed.

  Lemma create_parent e p k t t' : create e (p ++ [k]) t = Some t' -> kind_at p t = Some KDir.
  Proof. unfold create. destruct (get _ t) as [[]|]; try discriminate; apply put_parent. Qed.

  Lemma create_sorted e p t t' : create e p t = Some t' -> sorted_tree t -> sorted_tree t'.
  Proof.
    unfold create. intros H S. assert (put p (Some (File e)) t = Some t') as P.
    { destruct (get p t) as [[]|]; auto; discriminate. }
    eapply put_sorted; eauto. intros u [= <-]. exact I.
  Qed.

  Lemma write_spec p c t t' :
    write p c t = Some t' ->
    (exists c', kind_at p t = Some (KFile c')) /\
    (forall q, kind_at q t' = if is_prefix p q then (if is_prefix q p then Some (KFile c) else None) else kind_at q t).
  Proof.
    unfold write. intros H. assert (put p (Some (File c)) t = Some t' /\ exists c', kind_at p t = Some (KFile c')) as (P & K).
    { unfold kind_at. destruct (get p t) as [[]|]; cbn; try discriminate; split; eauto. }
    split; auto. intros q. rewrite (put_kind _ _ _ _ _ P). destruct (is_prefix p q) eqn:E; auto.
    apply is_prefix_spec in E as (r & ->). rewrite after_prefix_app. destruct r.
    - now rewrite app_nil_r, is_prefix_refl.
    - replace (is_prefix (p ++ s :: r) p) with false; [reflexivity|].
      symmetry. apply not_true_is_false. intros H'. apply is_prefix_spec in H' as (x & H').
      apply (f_equal (@List.length _)) in H'. rewrite !app_length in H'. cbn in H'. lia.
  Qed.

  Lemma write_some p c c' t : p <> [] -> kind_at p t = Some (KFile c') -> exists t', write p c t = Some t'.
  Proof.
    intros N K. unfold write. unfold kind_at in K. destruct (get p t) as [[x|]|] eqn:G; try discriminate.
    destruct (split_last p) as [->|(q & k & ->)]; [congruence|]. apply put_some.
    apply kind_below with (q := [k]); [|discriminate]. unfold kind_at. now rewrite G.
  Qed.

  Lemma write_sorted p c t t' : write p c t = Some t' -> sorted_tree t -> sorted_tree t'.
  Proof.
    unfold write. intros H S. assert (put p (Some (File c)) t = Some t') as P.
    { destruct (get p t) as [[]|]; auto; discriminate. }
    eapply put_sorted; eauto. intros u [= <-]. exact I.
  Qed.

  Lemma rename_spec src dst t t' :
    rename src dst t = Some t' -> is_prefix src dst = false ->
    kind_at src t <> None /\
    (forall q, kind_at q t' = if is_prefix src q then None
                              else if is_prefix dst q then kind_at (src ++ after_prefix dst q) t
                              else kind_at q t).
  Proof.
    unfold rename. destruct (get src t) as [x|] eqn:G; [|discriminate]. intros H N. rewrite N in H.
    match type of H with (if ?f then _ else _) = _ => destruct f; [|discriminate] end.
    destruct (put dst (Some x) t) as [u|] eqn:P; [|discriminate].
    split; [unfold kind_at; rewrite G; destruct x; discriminate|].
    intros q. rewrite (put_kind _ _ _ _ _ H). destruct (is_prefix src q) eqn:Q; auto.
    rewrite (put_kind _ _ _ _ _ P). destruct (is_prefix dst q) eqn:D; auto.
    unfold kind_at. rewrite get_app, G. reflexivity.
  Qed.

  Lemma rename_dst src dst k t t' :
    rename src (dst ++ [k]) t = Some t' -> is_prefix src (dst ++ [k]) = false -> kind_at dst t = Some KDir.
  Proof.
    unfold rename. destruct (get src t) as [x|]; [|discriminate]. intros H N. rewrite N in H.
    match type of H with (if ?f then _ else _) = _ => destruct f; [|discriminate] end.
    destruct (put (dst ++ [k]) (Some x) t) as [u|] eqn:P; [|discriminate]. eapply put_parent; eauto.
  Qed.

  Lemma rename_some src k dst t :
    kind_at (src ++ [k]) t <> None -> is_prefix (src ++ [k]) dst = false ->
    kind_at dst t = None -> (exists d j, dst = (d ++ [j])%list /\ kind_at d t = Some KDir) ->
    exists t', rename (src ++ [k]) dst t = Some t'.
  Proof.
    intros K N D (d & j & -> & KD). unfold rename. unfold kind_at in K, D.
    destruct (get (src ++ [k]) t) as [x|] eqn:G; [|now cbn in K]. rewrite N.
    destruct (get (d ++ [j]) t) as [[]|] eqn:GD; try discriminate.
    assert (F : match x with File _ | _ => true end = true) by now destruct x. rewrite F.
    destruct (put_some d j (Some x) t KD) as (u & P). rewrite P. apply put_some.
    rewrite (put_kind _ _ _ _ _ P). destruct (is_prefix (d ++ [j]) src) eqn:Q.
    - exfalso. apply is_prefix_spec in Q as (r & ->). rewrite <- app_assoc, get_app, GD in G. discriminate.
    - apply kind_below with (q := [k]); [|discriminate]. unfold kind_at. rewrite G. destruct x; discriminate.
  Qed.

  Lemma rename_sorted src dst t t' : rename src dst t = Some t' -> sorted_tree t -> sorted_tree t'.
  Proof.
    unfold rename. destruct (get src t) as [x|] eqn:G; [|discriminate].
    destruct (is_prefix src dst).
    - destruct (is_prefix dst src); [now injection 1 as <-|discriminate].
    - match goal with |- (if ?f then _ else _) = _ -> _ => destruct f; [|discriminate] end.
      destruct (put dst (Some x) t) as [u|] eqn:P; [|discriminate]. intros Q S.
      eapply put_sorted; [exact Q| |discriminate].
      eapply put_sorted; [exact P|auto|]. intros v [= <-]. eapply sorted_get; eauto.
  Qed.

  (** The names in a directory. *)
  Lemma names_spec p t es k :
    get p t = Some (Dir es) -> (In k (map fst es) <-> kind_at (p ++ [k]) t <> None).
  Proof.
    intros G. unfold kind_at. rewrite get_app, G. cbn [get].
    rewrite (mlookup_Some_key k es). split.
    - intros (v & L). rewrite L. destruct v; discriminate.
    - intros H. destruct (mlookup k es) as [v|]; [eauto|now cbn in H].
  Qed.
End Trees.
