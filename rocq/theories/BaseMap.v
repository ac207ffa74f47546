(** Go maps with string keys.

    A Go map that is only looked up, updated and serialised (encoding/json writes the keys in
    order) is modelled as an association list in strictly increasing key order, so that two
    maps with the same content are equal lists ([smap_ext]).  A Go map that the code iterates
    over is modelled as an association list in the order of that iteration. *)
From Coq Require Import List String Ascii Bool Arith Lia Permutation Sorted.
From Verif Require Import BaseStr.
Import ListNotations.

(** ** Go's order on strings: bytewise lexicographic. *)
Fixpoint str_ltb (a b : string) : bool :=
  match a, b with
  | _, EmptyString => false
  | EmptyString, String _ _ => true
  | String x a', String y b' =>
      if Nat.ltb (nat_of_ascii x) (nat_of_ascii y) then true
      else if Ascii.eqb x y then str_ltb a' b' else false
  end.

Definition str_lt (a b : string) : Prop := str_ltb a b = true.

Lemma nat_of_ascii_inj x y : nat_of_ascii x = nat_of_ascii y -> x = y.
Proof. intros H. rewrite <- (ascii_nat_embedding x), H. apply ascii_nat_embedding. Qed.

Lemma str_lt_irrefl a : ~ str_lt a a.
Proof.
  unfold str_lt. induction a as [|x a IH]; simpl; [discriminate|].
  rewrite Nat.ltb_irrefl, Ascii.eqb_refl. auto.
Qed.

Lemma str_lt_trans a b c : str_lt a b -> str_lt b c -> str_lt a c.
Proof.
  unfold str_lt. revert b c.
  induction a as [|x a IH]; intros [|y b] [|z c]; simpl; try discriminate; auto.
  destruct (Nat.ltb (nat_of_ascii x) (nat_of_ascii y)) eqn:Exy.
  - intros _. destruct (Nat.ltb (nat_of_ascii y) (nat_of_ascii z)) eqn:Eyz.
    + intros _. apply Nat.ltb_lt in Exy, Eyz.
      replace (Nat.ltb (nat_of_ascii x) (nat_of_ascii z)) with true; auto.
      symmetry; apply Nat.ltb_lt; lia.
    + destruct (Ascii.eqb y z) eqn:E; [|discriminate].
      apply Ascii.eqb_eq in E; subst. intros _. now rewrite Exy.
  - destruct (Ascii.eqb x y) eqn:E; [|discriminate].
    apply Ascii.eqb_eq in E; subst. intros H.
    destruct (Nat.ltb (nat_of_ascii y) (nat_of_ascii z)); auto.
    destruct (Ascii.eqb y z); [|discriminate]. intros; eapply IH; eauto.
Qed.

Lemma str_trichotomy a b : str_lt a b \/ a = b \/ str_lt b a.
Proof.
  unfold str_lt. revert b. induction a as [|x a IH]; intros [|y b]; simpl; auto.
  destruct (Nat.ltb (nat_of_ascii x) (nat_of_ascii y)) eqn:E1; auto.
  destruct (Nat.ltb (nat_of_ascii y) (nat_of_ascii x)) eqn:E2; auto.
  assert (x = y) as ->.
  { apply nat_of_ascii_inj. apply Nat.ltb_ge in E1, E2. lia. }
  rewrite Ascii.eqb_refl. destruct (IH b) as [H|[->|H]]; auto.
Qed.

Lemma str_lt_asym a b : str_lt a b -> ~ str_lt b a.
Proof. intros H1 H2. exact (str_lt_irrefl _ (str_lt_trans _ _ _ H1 H2)). Qed.

Section Maps.
  Context {V : Type}.

  (** m[k] with the "ok" result. *)
  Fixpoint mlookup (k : string) (m : list (string * V)) : option V :=
    match m with
    | [] => None
    | (k', v) :: r => if String.eqb k' k then Some v else mlookup k r
    end.

  (** m[k] = v on a map kept in key order. *)
  Fixpoint minsert (k : string) (v : V) (m : list (string * V)) : list (string * V) :=
    match m with
    | [] => [(k, v)]
    | (k', v') :: r =>
        if String.eqb k' k then (k, v) :: r
        else if str_ltb k k' then (k, v) :: m
        else (k', v') :: minsert k v r
    end.

  Definition mkeys (m : list (string * V)) : list string := map fst m.

  (** Strictly increasing keys. *)
  Definition msorted (m : list (string * V)) : Prop := StronglySorted str_lt (mkeys m).

  Lemma mlookup_insert_eq k v m : mlookup k (minsert k v m) = Some v.
  Proof.
    induction m as [|[k' v'] r IH]; simpl.
    - now rewrite String.eqb_refl.
    - destruct (String.eqb k' k) eqn:E; simpl.
      + now rewrite String.eqb_refl.
      + destruct (str_ltb k k'); simpl.
        * now rewrite String.eqb_refl.
        * now rewrite E.
  Qed.

  Lemma mlookup_insert_ne k k' v m : k <> k' -> mlookup k' (minsert k v m) = mlookup k' m.
  Proof.
    intros Hne. induction m as [|[k2 v2] r IH]; simpl.
    - now rewrite (proj2 (String.eqb_neq k k') Hne).
    - destruct (String.eqb k2 k) eqn:E; simpl.
      + apply String.eqb_eq in E; subst. now rewrite (proj2 (String.eqb_neq k k') Hne).
      + destruct (str_ltb k k2); simpl.
        * now rewrite (proj2 (String.eqb_neq k k') Hne).
        * destruct (String.eqb k2 k'); auto.
  Qed.

  Lemma mlookup_insert k k' v m :
    mlookup k' (minsert k v m) = if String.eqb k k' then Some v else mlookup k' m.
  Proof.
    destruct (String.eqb k k') eqn:E.
    - apply String.eqb_eq in E; subst. apply mlookup_insert_eq.
    - apply mlookup_insert_ne. now apply String.eqb_neq.
  Qed.

  Lemma mlookup_In k v m : mlookup k m = Some v -> In (k, v) m.
  Proof.
    induction m as [|[k' v'] r IH]; simpl; [discriminate|].
    destruct (String.eqb k' k) eqn:E.
    - apply String.eqb_eq in E; subst. injection 1 as ->; auto.
    - auto.
  Qed.

  Lemma mlookup_None k m : mlookup k m = None <-> ~ In k (mkeys m).
  Proof.
    induction m as [|[k' v'] r IH]; simpl.
    - tauto.
    - destruct (String.eqb k' k) eqn:E.
      + apply String.eqb_eq in E; subst. split; [discriminate|tauto].
      + apply String.eqb_neq in E. rewrite IH. tauto.
  Qed.

  Lemma mlookup_Some_key k m : In k (mkeys m) <-> exists v, mlookup k m = Some v.
  Proof.
    destruct (mlookup k m) eqn:E.
    - split; eauto. intros _. apply mlookup_In in E. apply (in_map fst) in E. exact E.
    - apply mlookup_None in E. split; [tauto|intros [v H]; discriminate].
  Qed.

  Lemma In_mlookup k v m : NoDup (mkeys m) -> In (k, v) m -> mlookup k m = Some v.
  Proof.
    induction m as [|[k' v'] r IH]; simpl; [tauto|].
    intros HN [H|H]; inversion HN; subst.
    - injection H as -> ->. now rewrite String.eqb_refl.
    - destruct (String.eqb k' k) eqn:E; auto.
      apply String.eqb_eq in E; subst.
      exfalso. apply (in_map fst) in H. contradiction.
  Qed.

  Lemma minsert_keys k v m : forall x, In x (mkeys (minsert k v m)) <-> x = k \/ In x (mkeys m).
  Proof.
    intros x. rewrite !mlookup_Some_key.
    setoid_rewrite mlookup_insert.
    destruct (String.eqb k x) eqn:E.
    - apply String.eqb_eq in E; subst. split; eauto.
    - apply String.eqb_neq in E. split; [auto|intros [->|]; tauto].
  Qed.

  Lemma minsert_sorted k v m : msorted m -> msorted (minsert k v m).
  Proof.
    unfold msorted. induction m as [|[k' v'] r IH]; simpl; intros H.
    - repeat constructor.
    - apply StronglySorted_inv in H as [H1 H2].
      destruct (String.eqb k' k) eqn:E; simpl.
      + apply String.eqb_eq in E; subst. constructor; auto.
      + apply String.eqb_neq in E. destruct (str_ltb k k') eqn:El; simpl.
        * constructor; [constructor; auto|]. constructor; [exact El|].
          eapply Forall_impl; [|exact H2]. intros a Ha. eapply str_lt_trans; eauto.
        * constructor; auto. apply Forall_forall. intros x Hx.
          apply minsert_keys in Hx as [->|Hx].
          -- destruct (str_trichotomy k' k) as [?|[?|?]]; auto; [congruence|].
             unfold str_lt in *; congruence.
          -- rewrite Forall_forall in H2; auto.
  Qed.

  Lemma msorted_nil : msorted [].
  Proof. constructor. Qed.

  Lemma msorted_NoDup m : msorted m -> NoDup (mkeys m).
  Proof.
    unfold msorted. induction 1; constructor; auto.
    intros Hin. rewrite Forall_forall in H0. exact (str_lt_irrefl _ (H0 _ Hin)).
  Qed.

  (** Two maps in key order with the same content are the same list. *)
  Lemma smap_ext m m' :
    msorted m -> msorted m' -> (forall k, mlookup k m = mlookup k m') -> m = m'.
  Proof.
    unfold msorted. revert m'. induction m as [|[k v] r IH]; intros [|[k' v'] r'] S1 S2 HE; auto.
    - specialize (HE k'). simpl in HE. now rewrite String.eqb_refl in HE.
    - specialize (HE k). simpl in HE. now rewrite String.eqb_refl in HE.
    - simpl in S1, S2. apply StronglySorted_inv in S1 as [S1 F1], S2 as [S2 F2].
      rewrite Forall_forall in F1, F2.
      assert (k = k').
      { destruct (str_trichotomy k k') as [H|[H|H]]; auto; exfalso.
        - pose proof (HE k) as Hk. simpl in Hk. rewrite String.eqb_refl in Hk.
          destruct (String.eqb k' k) eqn:E.
          + apply String.eqb_eq in E; subst. exact (str_lt_irrefl _ H).
          + symmetry in Hk. apply mlookup_In, (in_map fst) in Hk.
            exact (str_lt_asym _ _ H (F2 _ Hk)).
        - pose proof (HE k') as Hk. simpl in Hk. rewrite String.eqb_refl in Hk.
          destruct (String.eqb k k') eqn:E.
          + apply String.eqb_eq in E; subst. exact (str_lt_irrefl _ H).
          + apply mlookup_In, (in_map fst) in Hk.
            exact (str_lt_asym _ _ H (F1 _ Hk)). }
      subst k'. pose proof (HE k) as Hk. simpl in Hk. rewrite String.eqb_refl in Hk.
      injection Hk as ->. f_equal. apply IH; auto.
      intros x. specialize (HE x). simpl in HE. destruct (String.eqb k x) eqn:E; auto.
      apply String.eqb_eq in E; subst.
      assert (forall l : list (string * V), (forall y, In y (mkeys l) -> str_lt x y) -> mlookup x l = None) as Hn.
      { intros l Hl. apply mlookup_None. intros Hin. exact (str_lt_irrefl _ (Hl _ Hin)). }
      rewrite !Hn; auto.
  Qed.

  (** A map built by successive assignments. *)
  Definition mof (l : list (string * V)) : list (string * V) :=
    fold_left (fun m kv => minsert (fst kv) (snd kv) m) l [].

  Lemma fold_minsert_sorted (l m : list (string * V)) :
    msorted m -> msorted (fold_left (fun m kv => minsert (fst kv) (snd kv) m) l m).
  Proof. revert m. induction l; simpl; auto using minsert_sorted. Qed.

  Lemma fold_minsert_lookup (l m : list (string * V)) k :
    mlookup k (fold_left (fun m kv => minsert (fst kv) (snd kv) m) l m) =
    match mlookup k (rev l) with Some v => Some v | None => mlookup k m end.
  Proof.
    revert m. induction l as [|[a v] l IH]; intros m; simpl; auto.
    rewrite IH. simpl.
    assert (forall l1 l2 : list (string * V), mlookup k (l1 ++ l2) =
              match mlookup k l1 with Some v => Some v | None => mlookup k l2 end) as Happ.
    { induction l1 as [|[x y] l1 IH1]; intros; simpl; auto.
      destruct (String.eqb x k); auto. }
    rewrite Happ. destruct (mlookup k (rev l)); auto.
    rewrite mlookup_insert. simpl. destruct (String.eqb a k); auto.
  Qed.

  Lemma mlookup_app k (l1 l2 : list (string * V)) :
    mlookup k (l1 ++ l2) = match mlookup k l1 with Some v => Some v | None => mlookup k l2 end.
  Proof.
    induction l1 as [|[x y] l1 IH1]; intros; simpl; auto.
    destruct (String.eqb x k); auto.
  Qed.

  Lemma mlookup_perm k (m m' : list (string * V)) :
    NoDup (mkeys m) -> Permutation m m' -> mlookup k m = mlookup k m'.
  Proof.
    intros HN HP.
    assert (HN' : NoDup (mkeys m')).
    { eapply Permutation_NoDup; [|exact HN]. now apply Permutation_map. }
    destruct (mlookup k m) as [v|] eqn:E.
    - symmetry. apply In_mlookup; auto. eapply Permutation_in; eauto. now apply mlookup_In.
    - symmetry. apply mlookup_None in E. apply mlookup_None. intros H. apply E.
      eapply Permutation_in; [|exact H]. apply Permutation_map. now symmetry.
  Qed.

  (** Assigning the entries of an iterated map in any order gives the same map. *)
  Lemma mof_perm (l l' : list (string * V)) :
    NoDup (mkeys l) -> Permutation l l' -> mof l = mof l'.
  Proof.
    intros HN HP. apply smap_ext; try (apply fold_minsert_sorted; constructor).
    intros k. unfold mof. rewrite !fold_minsert_lookup. simpl.
    rewrite (mlookup_perm k (rev l) (rev l')); auto.
    - unfold mkeys. rewrite map_rev. apply NoDup_rev; auto.
    - rewrite <- !Permutation_rev. auto.
  Qed.
End Maps.

Lemma mlookup_map {V W} (f : V -> W) k (m : list (string * V)) :
  mlookup k (map (fun kv => (fst kv, f (snd kv))) m) = option_map f (mlookup k m).
Proof.
  induction m as [|[x y] m IH]; simpl; auto. destruct (String.eqb x k); auto.
Qed.
