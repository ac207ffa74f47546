(** Caching and loading. *)
From Coq Require Import List String Ascii Bool ZArith Arith Lia.
From Verif Require Import BaseStr BaseMap M_Types M_Collect M_OpenAPI M_Parse M_Clean M_FS M_Service.
From Verif Require Import S_Cache P_FS P_Path P_Act.
Import ListNotations.
Local Open Scope string_scope.

(** ** json_string *)

Lemma is_cont_spec lo hi c : is_cont lo hi c = true <-> byte_in lo hi c.
Proof. unfold is_cont, byte_in. rewrite andb_true_iff, !Nat.leb_le. tauto. Qed.

(** One step of [json_string]. *)
Lemma json_cons c r :
  json_string (String c r) =
  let n := nat_of_ascii c in
  if Nat.ltb n 128 then String c (json_string r)
  else if Nat.leb 194 n && Nat.leb n 223 then
    match r with
    | String d r1 => if is_cont 128 191 d then String c (String d (json_string r1)) else replacement (json_string r)
    | EmptyString => replacement EmptyString
    end
  else if Nat.leb 224 n && Nat.leb n 239 then
    match r with
    | String d (String e r2) =>
        if is_cont (if Nat.eqb n 224 then 160 else 128) (if Nat.eqb n 237 then 159 else 191) d && is_cont 128 191 e
        then String c (String d (String e (json_string r2))) else replacement (json_string r)
    | _ => replacement (json_string r)
    end
  else if Nat.leb 240 n && Nat.leb n 244 then
    match r with
    | String d (String e (String f r3)) =>
        if is_cont (if Nat.eqb n 240 then 144 else 128) (if Nat.eqb n 244 then 143 else 191) d
           && is_cont 128 191 e && is_cont 128 191 f
        then String c (String d (String e (String f (json_string r3)))) else replacement (json_string r)
    | _ => replacement (json_string r)
    end
  else replacement (json_string r).
Proof. reflexivity. Qed.

Lemma utf8_json s : utf8 s -> json_string s = s.
Proof.
  intros H.
  assert (T : forall lo hi c, byte_in lo hi c -> is_cont lo hi c = true) by (intros; now apply is_cont_spec).
  induction H; [reflexivity|..]; rewrite json_cons; cbv zeta; unfold byte_in in *;
  try (remember (nat_of_ascii a) as n eqn:En; clear En);
  repeat (match goal with
  | |- context [Nat.ltb ?a ?b] =>
      first [rewrite (proj2 (Nat.ltb_lt a b)) by lia|rewrite (proj2 (Nat.ltb_ge a b)) by lia]
  | |- context [Nat.leb ?a ?b] =>
      first [rewrite (proj2 (Nat.leb_le a b)) by lia|rewrite (proj2 (Nat.leb_gt a b)) by lia]
  | |- context [Nat.eqb ?a ?b] =>
      first [rewrite (proj2 (Nat.eqb_eq a b)) by lia|rewrite (proj2 (Nat.eqb_neq a b)) by lia]
  end; cbn [andb]; cbv iota);
  repeat match goal with
  | |- context [is_cont ?lo ?hi ?c] => rewrite (T lo hi c) by (unfold byte_in; lia)
  end; cbn [andb]; now rewrite IHutf8.
Qed.

(** Invalid bytes make the text longer. *)
Lemma json_longer : forall n s, String.length s <= n -> String.length s <= String.length (json_string s).
Proof.
  induction n as [|n IH]; intros s L.
  - destruct s; [apply Nat.le_0_l|cbn in L; lia].
  - destruct s as [|a r]; [apply Nat.le_0_l|]. cbn [String.length] in L.
    assert (Hr : String.length r <= String.length (json_string r)) by (apply IH; lia).
    assert (BAD : String.length (String a r) <= String.length (replacement (json_string r))).
    { unfold replacement. cbn [String.length]. lia. }
    rewrite json_cons; cbv zeta.
    destruct (Nat.ltb (nat_of_ascii a) 128); [cbn [String.length]; lia|].
    destruct (Nat.leb 194 (nat_of_ascii a) && Nat.leb (nat_of_ascii a) 223).
    { destruct r as [|b r]; [exact BAD|]. destruct (is_cont 128 191 b); [|exact BAD].
      cbn [String.length] in L |- *. specialize (IH r). lia. }
    destruct (Nat.leb 224 (nat_of_ascii a) && Nat.leb (nat_of_ascii a) 239).
    { destruct r as [|b [|c r]]; [exact BAD|exact BAD|]. destruct (is_cont _ _ b && is_cont 128 191 c); [|exact BAD].
      cbn [String.length] in L |- *. specialize (IH r). lia. }
    destruct (Nat.leb 240 (nat_of_ascii a) && Nat.leb (nat_of_ascii a) 244).
    { destruct r as [|b [|c [|d r]]]; [exact BAD|exact BAD|exact BAD|].
      destruct (is_cont _ _ b && is_cont 128 191 c && is_cont 128 191 d); [|exact BAD].
      cbn [String.length] in L |- *. specialize (IH r). lia. }
    exact BAD.
Qed.

Lemma json_utf8 : forall n s, String.length s <= n -> json_string s = s -> utf8 s.
Proof.
  induction n as [|n IH]; intros s L.
  - destruct s; [constructor|cbn in L; lia].
  - destruct s as [|a r]; [constructor|]. cbn [String.length] in L.
    assert (BAD : replacement (json_string r) <> String a r).
    { intros E. apply (f_equal String.length) in E. unfold replacement in E. cbn [String.length] in E.
      pose proof (json_longer (String.length r) r (le_n _)). lia. }
    rewrite json_cons; cbv zeta.
    destruct (Nat.ltb (nat_of_ascii a) 128) eqn:E1.
    { apply Nat.ltb_lt in E1. intros [= E]. apply utf8_1; [unfold byte_in; lia|apply IH; [lia|auto]]. }
    apply Nat.ltb_ge in E1.
    destruct (Nat.leb 194 (nat_of_ascii a) && Nat.leb (nat_of_ascii a) 223) eqn:E2.
    { apply andb_true_iff in E2 as (E2 & E3). apply Nat.leb_le in E2, E3. destruct r as [|b r]; [discriminate|].
      destruct (is_cont 128 191 b) eqn:B; [|intros X; now apply BAD in X].
      apply is_cont_spec in B. intros [= E]. cbn [String.length] in L.
      apply utf8_2; auto; [unfold byte_in; lia|apply IH; [lia|auto]]. }
    destruct (Nat.leb 224 (nat_of_ascii a) && Nat.leb (nat_of_ascii a) 239) eqn:E3.
    { apply andb_true_iff in E3 as (E3 & E4). apply Nat.leb_le in E3, E4. clear E2.
      destruct r as [|b [|c r]]; try (intros X; now apply BAD in X).
      match goal with |- (if ?x then _ else _) = _ -> _ => destruct x eqn:B end; [|intros X; now apply BAD in X].
      apply andb_true_iff in B as (B & B2). apply is_cont_spec in B, B2. intros [= E]. cbn [String.length] in L.
      assert (U : utf8 r) by (apply IH; [lia|auto]).
      destruct (Nat.eqb (nat_of_ascii a) 224) eqn:N1; destruct (Nat.eqb (nat_of_ascii a) 237) eqn:N2;
        rewrite ?Nat.eqb_eq, ?Nat.eqb_neq in *; try lia.
      - apply utf8_3a; auto; unfold byte_in in *; lia.
      - apply utf8_3c; auto; unfold byte_in in *; lia.
      - destruct (Nat.ltb (nat_of_ascii a) 237) eqn:N3; rewrite ?Nat.ltb_lt, ?Nat.ltb_ge in *.
        + apply utf8_3b; auto; unfold byte_in in *; lia.
        + apply utf8_3d; auto; unfold byte_in in *; lia. }
    destruct (Nat.leb 240 (nat_of_ascii a) && Nat.leb (nat_of_ascii a) 244) eqn:E4.
    { apply andb_true_iff in E4 as (E4 & E5). apply Nat.leb_le in E4, E5. clear E2 E3.
      destruct r as [|b [|c [|d r]]]; try (intros X; now apply BAD in X).
      match goal with |- (if ?x then _ else _) = _ -> _ => destruct x eqn:B end; [|intros X; now apply BAD in X].
      apply andb_true_iff in B as (B & B3). apply andb_true_iff in B as (B & B2).
      apply is_cont_spec in B, B2, B3. intros [= E]. cbn [String.length] in L.
      assert (U : utf8 r) by (apply IH; [lia|auto]).
      destruct (Nat.eqb (nat_of_ascii a) 240) eqn:N1; destruct (Nat.eqb (nat_of_ascii a) 244) eqn:N2;
        rewrite ?Nat.eqb_eq, ?Nat.eqb_neq in *; try lia.
      - apply utf8_4a; auto; unfold byte_in in *; lia.
      - apply utf8_4c; auto; unfold byte_in in *; lia.
      - apply utf8_4b; auto; unfold byte_in in *; lia. }
    intros X. now apply BAD in X.
Qed.

Lemma json_string_iff s : json_string s = s <-> utf8 s.
Proof. split; [now apply json_utf8 with (n := String.length s)|apply utf8_json]. Qed.
