(** Go's byte strings and the few functions of package [strings] the code uses.
    A Go string is a sequence of bytes: Coq's [string] is a sequence of 8-bit
    [ascii]s. *)
From Coq Require Import List String Ascii Bool Arith Lia.
Import ListNotations.
Local Open Scope string_scope.

Arguments String.append : simpl nomatch.

(** The one-byte string. *)
Definition str1 (c : ascii) : string := String c EmptyString.

(** [has_char c s]: strings.ContainsRune for an ASCII rune. *)
Fixpoint has_char (c : ascii) (s : string) : bool :=
  match s with
  | EmptyString => false
  | String d r => (d =? c)%char || has_char c r
  end.

(** strings.Split(s, sep) for a one-byte separator; never empty. *)
Fixpoint split (c : ascii) (s : string) : list string :=
  match s with
  | EmptyString => [EmptyString]
  | String d r =>
      if (d =? c)%char then EmptyString :: split c r
      else match split c r with
           | [] => [str1 d] (* unreachable: split is never empty *)
           | h :: t => String d h :: t
           end
  end.

(** strings.Join(l, sep). *)
Definition join (sep : string) (l : list string) : string := String.concat sep l.

(** strings.HasPrefix. *)
Fixpoint has_prefix (p s : string) : bool :=
  match p, s with
  | EmptyString, _ => true
  | String a p', String b s' => (a =? b)%char && has_prefix p' s'
  | String _ _, EmptyString => false
  end.

(** s[n:] for n <= len(s). *)
Fixpoint drop (n : nat) (s : string) : string :=
  match n, s with
  | O, _ => s
  | S n', String _ r => drop n' r
  | S _, EmptyString => EmptyString
  end.

(** s[:n] for n <= len(s). *)
Fixpoint take (n : nat) (s : string) : string :=
  match n, s with
  | O, _ => EmptyString
  | S n', String c r => String c (take n' r)
  | S _, EmptyString => EmptyString
  end.

(** strings.HasSuffix. *)
Definition has_suffix (suf s : string) : bool :=
  let ls := String.length s in
  let lf := String.length suf in
  Nat.leb lf ls && String.eqb (drop (ls - lf) s) suf.

(** strings.Contains. *)
Fixpoint contains (sub s : string) : bool :=
  has_prefix sub s ||
  match s with
  | EmptyString => false
  | String _ r => contains sub r
  end.

(** strings.Replace(s, old, new, 1) for a non-empty [old]. *)
Fixpoint replace_first (old new s : string) : string :=
  if has_prefix old s then new ++ drop (String.length old) s
  else match s with
       | EmptyString => EmptyString
       | String c r => String c (replace_first old new r)
       end.

(** strings.ReplaceAll(s, old, new) for a non-empty [old]: left to right, the
    occurrences do not overlap.  [skip] bytes of an occurrence already replaced
    are still to be dropped. *)
Fixpoint replace_all_from (skip : nat) (old new s : string) : string :=
  match s with
  | EmptyString => EmptyString
  | String c r =>
      match skip with
      | S k => replace_all_from k old new r
      | O => if has_prefix old s
             then new ++ replace_all_from (String.length old - 1) old new r
             else String c (replace_all_from O old new r)
      end
  end.
Definition replace_all := replace_all_from O.

(** s[strings.LastIndex(s, "c")+1:] : what follows the last [c], or all of [s]. *)
Fixpoint after_last (c : ascii) (s : string) : string :=
  match s with
  | EmptyString => EmptyString
  | String d r => if has_char c r then after_last c r
                  else if (d =? c)%char then r else s
  end.

(** strings.ToLower on ASCII letters. *)
Definition lower_char (c : ascii) : ascii :=
  let n := nat_of_ascii c in
  if (Nat.leb 65 n && Nat.leb n 90)%bool then ascii_of_nat (n + 32) else c.
Fixpoint to_lower (s : string) : string :=
  match s with
  | EmptyString => EmptyString
  | String c r => String (lower_char c) (to_lower r)
  end.

(** * Lemmas *)

Lemma append_nil_r s : s ++ "" = s.
Proof. induction s; simpl; congruence. Qed.

Lemma append_assoc a b c : (a ++ b) ++ c = a ++ (b ++ c).
Proof. induction a; simpl; congruence. Qed.

Lemma append_inj_l a b c : a ++ b = a ++ c -> b = c.
Proof. induction a; simpl; intros H; [auto|]. injection H; auto. Qed.

Lemma length_append a b : String.length (a ++ b) = (String.length a + String.length b)%nat.
Proof. induction a; simpl; auto. Qed.

Lemma append_inj_len a b c d :
  String.length a = String.length c -> a ++ b = c ++ d -> a = c /\ b = d.
Proof.
  revert c. induction a as [|x a IH]; intros [|y c] Hl He; simpl in *; try discriminate; auto.
  injection He as -> He. injection Hl as Hl. destruct (IH _ Hl He); subst; auto.
Qed.

Lemma append_inj_r a b c : a ++ c = b ++ c -> a = b.
Proof.
  intros H. assert (String.length a = String.length b).
  { apply (f_equal String.length) in H. rewrite !length_append in H. lia. }
  destruct (append_inj_len _ _ _ _ H0 H); auto.
Qed.

Lemma append_eq_nil a b : a ++ b = "" -> a = "" /\ b = "".
Proof. destruct a; simpl; intros; [auto|discriminate]. Qed.

Lemma drop_append a b : drop (String.length a) (a ++ b) = b.
Proof. induction a; simpl; auto. Qed.

Lemma take_append a b : take (String.length a) (a ++ b) = a.
Proof. induction a; simpl; auto. now rewrite IHa. Qed.

Lemma take_drop n s : take n s ++ drop n s = s.
Proof. revert s; induction n; intros [|c s]; simpl; auto. now rewrite IHn. Qed.

Lemma length_drop n s : String.length (drop n s) = (String.length s - n)%nat.
Proof. revert s; induction n; intros [|c s]; simpl; auto. Qed.

Lemma has_char_append c a b : has_char c (a ++ b) = has_char c a || has_char c b.
Proof. induction a; simpl; auto. now rewrite IHa, orb_assoc. Qed.

Lemma has_prefix_spec p s : has_prefix p s = true <-> exists r, s = p ++ r.
Proof.
  revert s; induction p as [|a p IH]; intros s; simpl.
  - split; eauto.
  - destruct s as [|b s]; simpl.
    + split; [discriminate|intros [r H]; discriminate].
    + rewrite andb_true_iff, IH, Ascii.eqb_eq. split.
      * intros [-> [r ->]]; eauto.
      * intros [r H]. injection H as -> ->; eauto.
Qed.

Lemma has_suffix_spec suf s : has_suffix suf s = true <-> exists p, s = p ++ suf.
Proof.
  unfold has_suffix. rewrite andb_true_iff, Nat.leb_le, String.eqb_eq. split.
  - intros [Hl He]. exists (take (String.length s - String.length suf) s).
    rewrite <- He at 2. now rewrite take_drop.
  - intros [p ->]. rewrite length_append. split; [lia|].
    replace (String.length p + String.length suf - String.length suf)
      with (String.length p) by lia. apply drop_append.
Qed.

Lemma contains_spec sub s : contains sub s = true <-> exists a b, s = a ++ (sub ++ b).
Proof.
  induction s as [|c s IH]; cbn [contains]; rewrite orb_true_iff, has_prefix_spec.
  - split.
    + intros [[r H]|H]; [exists "", r; auto|discriminate].
    + intros (a & b & H). symmetry in H. apply append_eq_nil in H as [-> H]. eauto.
  - rewrite IH. split.
    + intros [[r H]|(a & b & ->)]; [exists "", r; auto|exists (String c a), b; auto].
    + intros ([|d a] & b & H); simpl in H.
      * left; eauto.
      * injection H as -> ->. right; eauto.
Qed.

Lemma split_not_nil c s : split c s <> [].
Proof.
  destruct s as [|d r]; simpl; [discriminate|].
  destruct (d =? c)%char; [discriminate|]. destruct (split c r); discriminate.
Qed.

Lemma join_cons sep a b l : join sep (a :: b :: l) = a ++ sep ++ join sep (b :: l).
Proof. reflexivity. Qed.

Lemma join_cons1 c a b l : join (str1 c) (a :: b :: l) = a ++ String c (join (str1 c) (b :: l)).
Proof. reflexivity. Qed.

Lemma join_one sep a : join sep [a] = a.
Proof. reflexivity. Qed.

Lemma join_cons_nonnil sep a l :
  l <> [] -> join sep (a :: l) = a ++ sep ++ join sep l.
Proof. destruct l; [congruence|reflexivity]. Qed.

Lemma join_split c s : join (str1 c) (split c s) = s.
Proof.
  induction s as [|d r IH]; [reflexivity|].
  cbn [split]. destruct (d =? c)%char eqn:E.
  - apply Ascii.eqb_eq in E; subst.
    rewrite join_cons_nonnil by apply split_not_nil. simpl. now rewrite IH.
  - destruct (split c r) as [|h t] eqn:Es; [now apply split_not_nil in Es|].
    destruct t as [|h2 t2].
    + rewrite join_one in *. now subst.
    + rewrite join_cons in *. simpl. now rewrite <- IH.
Qed.

Lemma split_no_char c s : Forall (fun x => has_char c x = false) (split c s).
Proof.
  induction s as [|d r IH]; simpl; [now constructor|].
  destruct (d =? c)%char eqn:E; [now constructor|].
  destruct (split c r) as [|h t]; [constructor; simpl; now rewrite ?E|].
  inversion IH; subst. constructor; auto. simpl. now rewrite E.
Qed.

Lemma split_no_sep c s : has_char c s = false -> split c s = [s].
Proof.
  induction s as [|d r IH]; simpl; auto. intros H.
  apply orb_false_iff in H as [H1 H2]. rewrite H1, IH; auto.
Qed.

Lemma split_app_sep c a b :
  has_char c a = false -> split c (a ++ String c b) = a :: split c b.
Proof.
  induction a as [|d a IH]; simpl; intros H.
  - now rewrite Ascii.eqb_refl.
  - apply orb_false_iff in H as [H1 H2]. now rewrite H1, IH.
Qed.

Lemma split_join c l :
  l <> [] -> Forall (fun x => has_char c x = false) l ->
  split c (join (str1 c) l) = l.
Proof.
  induction l as [|a l IH]; [congruence|]. intros _ HF. inversion HF; subst.
  destruct l as [|b l].
  - rewrite join_one. now apply split_no_sep.
  - rewrite join_cons. unfold str1 at 1. simpl (String c "" ++ _).
    rewrite split_app_sep by auto. f_equal. apply IH; auto; congruence.
Qed.

Lemma split_inj c s t : split c s = split c t -> s = t.
Proof. intros H. rewrite <- (join_split c s), H. apply join_split. Qed.

Lemma split_app c a b :
  split c (a ++ b) =
  (removelast (split c a) ++ (last (split c a) "" ++ hd "" (split c b))%string :: tl (split c b))%list.
Proof.
  induction a as [|d a IH]; simpl.
  - destruct (split c b) eqn:E; [now apply split_not_nil in E|reflexivity].
  - destruct (d =? c)%char eqn:E.
    + rewrite IH. destruct (split c a) eqn:Ea; [now apply split_not_nil in Ea|].
      reflexivity.
    + rewrite IH. destruct (split c a) as [|h [|h2 t]] eqn:Ea;
        [now apply split_not_nil in Ea| |]; reflexivity.
Qed.

Lemma after_last_split c s : after_last c s = last (split c s) "".
Proof.
  induction s as [|d r IH]; [reflexivity|]. cbn [after_last split].
  destruct (has_char c r) eqn:Eh.
  - rewrite IH. destruct (split c r) as [|h [|h2 t]] eqn:Es.
    + now apply split_not_nil in Es.
    + exfalso. pose proof (join_split c r) as J. rewrite Es, join_one in J. subst h.
      pose proof (split_no_char c r) as F. rewrite Es in F. inversion F; congruence.
    + destruct (d =? c)%char; reflexivity.
  - rewrite (split_no_sep c r) by auto. destruct (d =? c)%char; reflexivity.
Qed.

Lemma after_last_no_char c s : has_char c (after_last c s) = false.
Proof.
  rewrite after_last_split.
  pose proof (split_no_char c s) as F. rewrite Forall_forall in F.
  apply F. pose proof (split_not_nil c s).
  destruct (exists_last H) as (l' & x & ->). rewrite last_last.
  apply in_app_iff; right; left; auto.
Qed.

(** Elementary decisions on strings. *)
Lemma eqb_neq_string a b : String.eqb a b = false <-> a <> b.
Proof. apply String.eqb_neq. Qed.

Lemma string_app_cons_assoc a c b : a ++ String c b = (a ++ str1 c) ++ b.
Proof. now rewrite append_assoc. Qed.

(** strings.Replace replaces the first occurrence. *)
Lemma replace_first_spec old new a b :
  old <> "" ->
  (forall a', String.length a' < String.length a -> forall b',
      a ++ (old ++ b) <> a' ++ (old ++ b')) ->
  replace_first old new (a ++ (old ++ b)) = a ++ (new ++ b).
Proof.
  intros Hne. induction a as [|c a IH]; intros Hfirst.
  - simpl. destruct (old ++ b) as [|x r] eqn:E.
    { apply append_eq_nil in E as [-> _]; congruence. }
    cbn [replace_first].
    assert (Hp : has_prefix old (String x r) = true)
      by (apply has_prefix_spec; exists b; auto).
    rewrite Hp. rewrite <- E. now rewrite drop_append.
  - change ((String c a ++ (old ++ b))) with (String c (a ++ (old ++ b))).
    cbn [replace_first].
    destruct (has_prefix old (String c (a ++ (old ++ b)))) eqn:Hp.
    + apply has_prefix_spec in Hp as [r Hr].
      exfalso. apply (Hfirst "" ltac:(simpl; lia) r). simpl. auto.
    + simpl. f_equal. apply IH. intros a' Hl b' He.
      apply (Hfirst (String c a') ltac:(simpl; lia) b'). simpl. now rewrite He.
Qed.

Lemma replace_first_absent old new s :
  contains old s = false -> replace_first old new s = s.
Proof.
  induction s as [|c s IH]; cbn [contains replace_first]; intros H;
    apply orb_false_iff in H as [H1 H2]; rewrite H1; auto.
  now rewrite IH.
Qed.
