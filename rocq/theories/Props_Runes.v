(** The characters of a long constant: C34. *)
From Coq Require Import List String Ascii Bool ZArith NArith Arith Lia.
From Verif Require Import BaseStr M_Value S_Literal.
Import ListNotations.
Local Open Scope string_scope.

(** A text of UTF-8 with its code points. *)
Inductive encoded : list N -> string -> Prop :=
| ec_nil : encoded [] ""
| ec_cons n u ns s : encodes n u -> encoded ns s -> encoded (n :: ns) (u ++ s).

Fixpoint all_continue (s : string) : Prop := match s with EmptyString => True | String c r => continues c = true /\ all_continue r end.
Lemma byte_N n : (n < 256)%N -> nat_of_ascii (ascii_of_N n) = N.to_nat n.
Proof. intros H. unfold nat_of_ascii. now rewrite N_ascii_embedding. Qed.
Lemma cont_byte b : (b < 64)%N -> continues (ascii_of_N (128 + b)) = true.
Proof. intros H. unfold continues. rewrite byte_N by lia. apply andb_true_iff. rewrite Nat.leb_le, Nat.ltb_lt. lia. Qed.
Lemma lead_byte a : (192 <= a < 256)%N -> continues (ascii_of_N a) = false.
Proof. intros H. unfold continues. rewrite byte_N by lia. apply andb_false_iff. right. apply Nat.ltb_ge. lia. Qed.
Lemma encodes_shape n u : encodes n u -> exists a w, u = String a w /\ continues a = false /\ all_continue w.
Proof.
  intros H. inversion H; subst; unfold text_of; cbn [fold_right]; eexists; eexists; (split; [reflexivity|]); split; cbn [all_continue]; rewrite ?cont_byte by lia; auto.
  - unfold continues. rewrite byte_N by lia. apply andb_false_iff. left. apply Nat.leb_gt. lia.
  - apply lead_byte. lia.
  - apply lead_byte. lia.
  - apply lead_byte. lia.
Qed.
Lemma count_cont w s : all_continue w -> rune_count (w ++ s) = rune_count s.
Proof. induction w as [|c w IH]; auto. intros (C & A). cbn. rewrite C. auto. Qed.
Lemma take_cont n w s : all_continue w -> take_runes n (w ++ s) = w ++ take_runes n s.
Proof. induction w as [|c w IH]; auto. intros (C & A). cbn. rewrite C. f_equal. auto. Qed.

(** C34: characters are counted and cut as code points, in any text of UTF-8. *)
Theorem C34_characters :
  forall ns s, encoded ns s -> rune_count s = List.length ns /\ forall k, encoded (firstn k ns) (take_runes k s).
Proof.
  induction 1 as [|n u ns s E _ (L & T)].
  - split; auto. intros [|k]; constructor.
  - destruct (encodes_shape _ _ E) as (a & w & -> & A & W). split.
    + cbn [append rune_count List.length]. rewrite A, count_cont by auto. lia.
    + intros [|k]; cbn [append take_runes firstn]; rewrite A; [constructor|]. rewrite take_cont by auto. exact (ec_cons n (String a w) _ _ E (T k)).
Qed.
Print Assumptions C34_characters.
Example C34_characters_nontrivial : encoded [233; 8364; 97]%N "é€a".
Proof.
  apply (ec_cons 233 "é" _ "€a"); [apply (en_2 3 41 233); lia|]. apply (ec_cons 8364 "€" _ "a"); [apply (en_3 2 2 44 8364); lia|].
  apply (ec_cons 97 "a" _ ""); [apply (en_1 97); lia|constructor].
Qed.
