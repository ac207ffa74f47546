From Coq Require Import List String Ascii Bool ZArith NArith Nnat Arith Lia.
From Coq Require DecimalString DecimalZ.
From Verif Require Import BaseStr M_Types M_Tags M_OpenAPI M_TypeTrav S_TypeTrav P_Fields M_Value S_Value.
Import ListNotations.
Local Open Scope string_scope.

(** ** Trimming *)
Lemma trim_right_again c s : trim_right_char c (s ++ str1 c) = trim_right_char c s.
Proof.
  induction s as [|d r IH].
  - cbn. now rewrite Ascii.eqb_refl.
  - change (trim_right_char c (String d (r ++ str1 c)) = trim_right_char c (String d r)).
    cbn [trim_right_char]. now rewrite IH.
Qed.

Lemma trim_right_end c s p : trim_right_char c s <> p ++ str1 c.
Proof.
  revert p. induction s as [|d r IH]; intros p; cbn [trim_right_char].
  - destruct p; discriminate.
  - destruct (trim_right_char c r) as [|e r'] eqn:E.
    + destruct (Ascii.eqb d c) eqn:Ed.
      * destruct p; discriminate.
      * destruct p as [|x [|y p]]; cbn; intros H; try discriminate.
        injection H as ->. now rewrite Ascii.eqb_refl in Ed.
    + destruct p as [|x p]; cbn; intros H.
      * discriminate.
      * injection H as -> H. now apply (IH p).
Qed.

Lemma trim_right_id c s : (forall p, s <> p ++ str1 c) -> trim_right_char c s = s.
Proof.
  induction s as [|d r IH]; intros H; [reflexivity|]. cbn [trim_right_char].
  rewrite IH.
  - destruct r as [|e r]; [|reflexivity]. destruct (Ascii.eqb d c) eqn:E; [|reflexivity].
    apply Ascii.eqb_eq in E. subst. now elim (H "").
  - intros p ->. now apply (H (String d p)).
Qed.

(** ** Unquoting *)
Lemma hex_val_quote : hex_val dquote = None.
Proof. reflexivity. Qed.
Lemma oct_val_quote : oct_val dquote = None.
Proof. reflexivity. Qed.

(** [digits] takes k digits off. *)
Lemma digits_split dv base k : forall acc s n rest, digits dv base k acc s = Some (n, rest) ->
  exists ds, s = ds ++ rest /\ String.length ds = k /\ (forall p c, ds = p ++ str1 c -> dv c <> None).
Proof.
  induction k as [|k IH]; intros acc s n rest H; cbn [digits] in H.
  - injection H as _ ->. exists "". repeat split. intros p c E. destruct p; discriminate.
  - destruct s as [|c r]; [discriminate|]. destruct (dv c) as [d|] eqn:Ed; [|discriminate].
    apply IH in H. destruct H as (ds & -> & Hl & Hd). exists (String c ds). split; [reflexivity|].
    split; [cbn; congruence|]. intros p x E. destruct p as [|y p].
    + cbn in E. injection E as -> ->. congruence.
    + cbn in E. injection E as -> E. now apply (Hd p).
Qed.

Lemma utf8_length n u : utf8 n = Some u -> String.length u <= 4.
Proof.
  unfold utf8. repeat match goal with |- context [if ?b then _ else _] => destruct b end;
    intros H; try discriminate; injection H as <-; cbn; lia.
Qed.
Lemma utf8_length3 n u : (n < 65536)%N -> utf8 n = Some u -> String.length u <= 3.
Proof.
  intros Hn. unfold utf8.
  destruct (N.ltb n 128); [intros H; injection H as <-; cbn; lia|].
  destruct (N.ltb n 2048); [intros H; injection H as <-; cbn; lia|].
  destruct (_ && _); [discriminate|].
  destruct (N.ltb n 65536) eqn:E; [intros H; injection H as <-; cbn; lia|].
  apply N.ltb_ge in E. lia.
Qed.

Lemma cons_opt_some p o v : cons_opt p o = Some v -> exists w, o = Some w /\ v = p ++ w.
Proof. destruct o; cbn; intros H; [|discriminate]. injection H as <-. eauto. Qed.

(** One step of unquoting: either a byte copied, or an escape of at least two bytes replaced by
    fewer. An escape ends in a double quote only if it stands for one. *)
Lemma unquote_step fuel s v : unquote_body (S fuel) s = Some v -> s <> "" ->
  exists tok rest u w, s = tok ++ rest /\ v = u ++ w /\ unquote_body fuel rest = Some w /\ tok <> "" /\
    ((exists c, tok = str1 c /\ u = str1 c /\ c <> backslash /\ c <> dquote) \/
     (exists t, tok = String backslash t /\ String.length u < String.length tok /\
        forall p, tok = p ++ str1 dquote -> u = str1 dquote)).
Proof.
  intros H Hne. destruct s as [|c r]; [now elim Hne|]. cbn [unquote_body] in H.
  destruct (Ascii.eqb c newline || Ascii.eqb c M_Tags.dquote) eqn:E0; [discriminate|].
  apply orb_false_iff in E0. destruct E0 as [_ Eq]. apply Ascii.eqb_neq in Eq.
  destruct (Ascii.eqb c backslash) eqn:Eb; cbn [negb] in H.
  2:{ apply cons_opt_some in H. destruct H as (w & Hw & ->). apply Ascii.eqb_neq in Eb.
      exists (str1 c), r, (str1 c), w. repeat split; auto; try discriminate. left. exists c. auto. }
  apply Ascii.eqb_eq in Eb. subst c.
  destruct r as [|e r']; [discriminate|].
  destruct (simple_escape e) as [x|] eqn:Es.
  { apply cons_opt_some in H. destruct H as (w & Hw & ->).
    exists (String backslash (str1 e)), r', (str1 x), w. repeat split; auto; try discriminate.
    right. exists (str1 e). repeat split; auto. intros p Hp.
    destruct p as [|? [|? p]]; cbn in Hp; try discriminate.
    - injection Hp as _ ->. vm_compute in Es. injection Es as <-. reflexivity.
    - injection Hp as _ _ Hp. destruct p; discriminate. }
  assert (After : forall k n rest, k = 4 \/ k = 8 -> digits hex_val 16 k 0 r' = Some (n, rest) ->
            (k = 4 -> (n < 65536)%N) ->
            match utf8 n with Some u => cons_opt u (unquote_body fuel rest) | None => None end = Some v ->
            exists tok rest u w, String backslash (String e r') = tok ++ rest /\ v = u ++ w /\ unquote_body fuel rest = Some w /\ tok <> "" /\
            ((exists c, tok = str1 c /\ u = str1 c /\ c <> backslash /\ c <> dquote) \/
             (exists t, tok = String backslash t /\ String.length u < String.length tok /\
              forall p, tok = p ++ str1 dquote -> u = str1 dquote))).
  { intros k n rest Hk Hd Hn Hu. destruct (utf8 n) as [u|] eqn:Eu; [|discriminate].
    apply cons_opt_some in Hu. destruct Hu as (w & Hw & ->).
    apply digits_split in Hd. destruct Hd as (ds & -> & Hl & Hds).
    exists (String backslash (String e ds)), rest, u, w. repeat split; auto; try discriminate.
    right. exists (String e ds). repeat split.
    - cbn. rewrite Hl. destruct Hk as [-> | ->].
      + specialize (utf8_length3 n u (Hn eq_refl) Eu). lia.
      + specialize (utf8_length n u Eu). lia.
    - intros p Hp. exfalso. destruct p as [|? [|? p]]; cbn in Hp.
      + discriminate.
      + injection Hp as _ _ Hp. subst ds. cbn in Hl. lia.
      + injection Hp as _ _ Hp. apply (Hds _ _ Hp). apply hex_val_quote. }
  destruct (Ascii.eqb e "x").
  { destruct (digits hex_val 16 2 0 r') as [[n rest]|] eqn:Ed; [|discriminate].
    apply cons_opt_some in H. destruct H as (w & Hw & ->).
    apply digits_split in Ed. destruct Ed as (ds & -> & Hl & Hds).
    exists (String backslash (String e ds)), rest, (byte_of n), w. repeat split; auto; try discriminate.
    right. exists (String e ds). repeat split.
    - cbn. lia.
    - intros p Hp. exfalso. destruct p as [|? [|? p]]; cbn in Hp.
      + discriminate.
      + injection Hp as _ _ Hp. subst ds. cbn in Hl. lia.
      + injection Hp as _ _ Hp. apply (Hds _ _ Hp). apply hex_val_quote. }
  destruct (Ascii.eqb e "u").
  { destruct (digits hex_val 16 4 0 r') as [[n rest]|] eqn:Ed; [|discriminate].
    apply (After 4 n rest); auto. intros _. clear - Ed.
    assert (B : forall k acc s n rest, digits hex_val 16 k acc s = Some (n, rest) ->
                (n < (acc + 1) * 16 ^ N.of_nat k)%N).
    { induction k as [|k IH]; intros acc s m rs H; cbn [digits] in H.
      - injection H as -> _. cbn. lia.
      - destruct s as [|c s]; [discriminate|]. destruct (hex_val c) as [d|] eqn:Eh; [|discriminate].
        assert (Hd : d < 16).
        { unfold hex_val in Eh. repeat match type of Eh with context [if ?b then _ else _] => destruct b eqn:? end;
          try discriminate; injection Eh as <-;
          repeat match goal with H : _ && _ = true |- _ => apply andb_true_iff in H; destruct H end;
          repeat match goal with H : Nat.leb _ _ = true |- _ => apply Nat.leb_le in H end; lia. }
        apply IH in H. rewrite Nat2N.inj_succ, N.pow_succ_r by lia. nia. }
    apply B in Ed. cbn in Ed. lia. }
  destruct (Ascii.eqb e "U").
  { destruct (digits hex_val 16 8 0 r') as [[n rest]|] eqn:Ed; [|discriminate].
    apply (After 8 n rest); auto. discriminate. }
  destruct (digits oct_val 8 3 0 (String e r')) as [[n rest]|] eqn:Ed; [|discriminate].
  destruct (N.leb n 255); [|discriminate].
  apply cons_opt_some in H. destruct H as (w & Hw & ->).
  apply digits_split in Ed. destruct Ed as (ds & Eds & Hl & Hds). rewrite Eds.
  exists (String backslash ds), rest, (byte_of n), w. repeat split; auto; try discriminate.
  right. exists ds. repeat split.
  - cbn. lia.
  - intros p Hp. exfalso. destruct p as [|? p]; cbn in Hp.
    + injection Hp as Hb. subst ds. discriminate.
    + injection Hp as _ Hp. apply (Hds _ _ Hp). apply oct_val_quote.
Qed.

Lemma unquote_nil fuel : unquote_body fuel "" = Some "".
Proof. now destruct fuel. Qed.

Lemma string_dec_nil s : s = "" \/ s <> "".
Proof. destruct s; [now left|right; discriminate]. Qed.

Lemma unquote_shorter fuel : forall s v, unquote_body fuel s = Some v ->
  String.length v <= String.length s /\
  (has_char backslash s = true -> String.length v < String.length s).
Proof.
  induction fuel as [|fuel IH]; intros s v H; destruct (string_dec_nil s) as [-> |Hne].
  - injection H as <-. cbn. split; [lia|discriminate].
  - destruct s; [now elim Hne|discriminate].
  - rewrite unquote_nil in H. injection H as <-. cbn. split; [lia|discriminate].
  - apply unquote_step in H; auto.
    destruct H as (tok & rest & u & w & -> & -> & Hw & Ht & [(c & -> & -> & Hc & _)|(t & -> & Hl & _)]).
    + apply IH in Hw. destruct Hw as [H1 H2]. rewrite !length_append. cbn [String.length str1].
      split; [lia|]. rewrite has_char_append. cbn [has_char str1].
      rewrite (proj2 (Ascii.eqb_neq c backslash)) by auto. cbn. intros H. apply H2 in H. lia.
    + apply IH in Hw. destruct Hw as [H1 _]. rewrite !length_append. cbn [String.length] in *. split; lia.
Qed.

Lemma unquote_plain fuel : forall s v, unquote_body fuel s = Some v -> has_char backslash s = false -> v = s.
Proof.
  induction fuel as [|fuel IH]; intros s v H Hb; destruct (string_dec_nil s) as [-> |Hne].
  - now injection H as <-.
  - destruct s; [now elim Hne|discriminate].
  - rewrite unquote_nil in H. now injection H as <-.
  - apply unquote_step in H; auto.
    destruct H as (tok & rest & u & w & -> & -> & Hw & Ht & [(c & -> & -> & Hc & _)|(t & -> & Hl & _)]).
    + rewrite has_char_append in Hb. apply orb_false_iff in Hb. destruct Hb as [_ Hb].
      now rewrite (IH _ _ Hw Hb).
    + exfalso. rewrite has_char_append in Hb. cbn [has_char] in Hb. rewrite Ascii.eqb_refl in Hb. discriminate.
Qed.

(** A trailing double quote is an escaped one. *)
Lemma unquote_end fuel : forall s v p, unquote_body fuel s = Some v -> s = p ++ str1 dquote ->
  exists q, v = q ++ str1 dquote.
Proof.
  induction fuel as [|fuel IH]; intros s v p H E; destruct (string_dec_nil s) as [Hs|Hne].
  - subst s. destruct p; discriminate.
  - destruct s; [now elim Hne|discriminate].
  - subst s. destruct p; discriminate.
  - apply unquote_step in H; auto.
    destruct H as (tok & rest & u & w & Es & -> & Hw & Ht & Hcase).
    destruct (string_dec_nil rest) as [-> |Hr].
    + rewrite unquote_nil in Hw. injection Hw as <-. rewrite append_nil_r in *. rewrite E in Es. clear E Hne.
      destruct Hcase as [(c & -> & -> & _ & Hq)|(t & -> & _ & Hq)].
      * exfalso. unfold str1 in Es. destruct p as [|x p].
        -- cbn in Es. injection Es as Es. now apply Hq.
        -- cbn in Es. injection Es as _ Es. destruct p; discriminate.
      * exists "". now rewrite (Hq _ (eq_sym Es)).
    + assert (Er : exists p', rest = p' ++ str1 dquote).
      { clear - E Es Hr. revert p E. rewrite Es. clear Es s.
        induction tok as [|c tok IHt]; intros p E; cbn in E; [eauto|].
        destruct p as [|d p]; cbn in E.
        - injection E as _ E. apply append_eq_nil in E. tauto.
        - injection E as _ E. eauto. }
      destruct Er as (p' & ->). destruct (IH _ _ p' Hw eq_refl) as (q & ->).
      exists (u ++ q). now rewrite append_assoc.
Qed.

Lemma unquote_start body v : unquote body = Some v -> trim_left_char dquote body = body.
Proof.
  unfold unquote. destruct body as [|c r]; [reflexivity|]. cbn [String.length]. intros H.
  apply unquote_step in H; [|discriminate].
  destruct H as (tok & rest & u & w & E & _ & _ & _ & [(c' & -> & _ & _ & Hq)|(t & -> & _)]);
    cbn in E; injection E as -> _; cbn [trim_left_char].
  - now rewrite (proj2 (Ascii.eqb_neq c' dquote)).
  - reflexivity.
Qed.

Lemma ends_dec c s : (exists p, s = p ++ str1 c) \/ (forall p, s <> p ++ str1 c).
Proof.
  destruct (has_suffix (str1 c) s) eqn:E.
  - left. now apply has_suffix_spec in E.
  - right. intros p ->. assert (H : has_suffix (str1 c) (p ++ str1 c) = true) by (apply has_suffix_spec; eauto).
    congruence.
Qed.

(** What the code makes of an interpreted string literal. *)
Lemma trim_left_length c r : String.length (trim_left_char c r) <= String.length r.
Proof.
  induction r as [|d r IH]; [apply le_n|]. cbn [trim_left_char String.length].
  destruct (Ascii.eqb d c); [lia|apply le_n].
Qed.

Lemma trim_literal body v : unquote body = Some v ->
  trim_quotes (String dquote (body ++ str1 dquote)) = trim_right_char dquote body.
Proof.
  intros H. unfold trim_quotes, trim_char. cbn [trim_left_char]. rewrite Ascii.eqb_refl.
  destruct body as [|c r] eqn:Eb.
  - reflexivity.
  - apply unquote_start in H. cbn [append trim_left_char] in *.
    destruct (Ascii.eqb c dquote) eqn:E.
    + exfalso. pose proof (trim_left_length dquote r) as L. rewrite H in L. cbn in L. lia.
    + change (String c (r ++ str1 dquote)) with (String c r ++ str1 dquote). apply trim_right_again.
Qed.

(** A bare double quote does not occur. *)
Lemma unquote_no_quote fuel : forall s v, unquote_body fuel s = Some v -> has_char backslash s = false ->
  has_char dquote s = false.
Proof.
  induction fuel as [|fuel IH]; intros s v H Hb; destruct (string_dec_nil s) as [-> |Hne]; try reflexivity.
  - destruct s; [now elim Hne|discriminate].
  - apply unquote_step in H; auto.
    destruct H as (tok & rest & u & w & -> & -> & Hw & Ht & [(c & -> & -> & Hc & Hq)|(t & -> & Hl & _)]).
    + rewrite has_char_append in Hb |- *. apply orb_false_iff in Hb. destruct Hb as [_ Hb].
      rewrite (IH _ _ Hw Hb). cbn [has_char str1]. now rewrite (proj2 (Ascii.eqb_neq c dquote)).
    + exfalso. rewrite has_char_append in Hb. cbn [has_char] in Hb. rewrite Ascii.eqb_refl in Hb. discriminate.
Qed.

Lemma literal_exact body v : unquote body = Some v ->
  (trim_quotes (String dquote (body ++ str1 dquote)) = v <-> has_char backslash body = false).
Proof.
  intros H. rewrite (trim_literal body v H). unfold unquote in H. split.
  - intros E. destruct (has_char backslash body) eqn:Hb; [|reflexivity]. exfalso.
    destruct (ends_dec dquote body) as [(p & Hp)|Hn].
    + destruct (unquote_end _ _ _ p H Hp) as (q & Hq). rewrite Hq in E. now apply trim_right_end in E.
    + rewrite (trim_right_id _ _ Hn) in E. apply unquote_shorter in H. destruct H as [_ H].
      apply H in Hb. subst v. lia.
  - intros Hb. pose proof (unquote_plain _ _ _ H Hb) as ->. apply trim_right_id. intros p Ep.
    pose proof (unquote_no_quote _ _ _ H Hb) as Hq. rewrite Ep, has_char_append in Hq.
    apply orb_false_iff in Hq. destruct Hq as [_ Hq]. vm_compute in Hq. discriminate.
Qed.

(** ** Constants *)
Lemma quote_byte_length c : 1 <= String.length (quote_byte c).
Proof. apply Nat.leb_le. destruct c as [[] [] [] [] [] [] [] []]; vm_compute; reflexivity. Qed.

Lemma quote_body_length s : String.length s <= String.length (quote_body s).
Proof.
  induction s as [|c r IH]; [apply le_n|]. cbn [quote_body String.length]. rewrite length_append.
  pose proof (quote_byte_length c). lia.
Qed.

Lemma Quote_length s : String.length s + 2 <= String.length (Quote s).
Proof.
  unfold Quote. cbn [String.length]. rewrite length_append. cbn [str1 String.length].
  pose proof (quote_body_length s). lia.
Qed.

Lemma Quote_differs s : Quote s <> s.
Proof. intros E. pose proof (Quote_length s). rewrite E in H. lia. Qed.

Lemma constant_short s : rune_count (Quote s) <= 72 -> constant_String (CString s) = Quote s.
Proof.
  intros H. unfold constant_String. destruct (Nat.ltb_spec 72 (rune_count (Quote s))); [lia|reflexivity].
Qed.

Lemma constant_long s : 72 < rune_count (Quote s) -> constant_String (CString s) = take_runes 69 (Quote s) ++ "...".
Proof.
  intros H. unfold constant_String. destruct (Nat.ltb_spec 72 (rune_count (Quote s))); [reflexivity|lia].
Qed.

Lemma plain_byte c : (32 <= nat_of_ascii c < 127 /\ nat_of_ascii c <> 34 /\ nat_of_ascii c <> 92)%nat ->
  quote_byte c = str1 c /\ continues c = false.
Proof.
  intros (H1 & H2 & H3). unfold quote_byte, continues. cbv zeta.
  destruct (Nat.eqb_spec (nat_of_ascii c) 34); [lia|]. destruct (Nat.eqb_spec (nat_of_ascii c) 92); [lia|].
  destruct (Nat.ltb_spec (nat_of_ascii c) 32); [lia|]. destruct (Nat.eqb_spec (nat_of_ascii c) 127); [lia|].
  destruct (Nat.leb_spec 128 (nat_of_ascii c)); [lia|]. auto.
Qed.

Lemma plain_quote s : plain s -> quote_body s = s /\ rune_count s = String.length s.
Proof.
  induction s as [|c r IH]; intros H; [auto|]. destruct H as [Hc Hr]. destruct (IH Hr) as [E1 E2].
  destruct (plain_byte c Hc) as [E3 E4]. cbn [quote_body rune_count String.length]. rewrite E3, E4, E1, E2. auto.
Qed.

Lemma rune_count_append a b : rune_count (a ++ b) = rune_count a + rune_count b.
Proof. induction a as [|c r IH]; [reflexivity|]. cbn [append rune_count]. destruct (continues c); rewrite IH; lia. Qed.

Lemma plain_constant s : plain s -> String.length s <= 70 ->
  constant_String (CString s) = String dquote (s ++ str1 dquote).
Proof.
  intros H L. destruct (plain_quote s H) as [E1 E2]. rewrite constant_short.
  - unfold Quote. now rewrite E1.
  - unfold Quote. rewrite E1. change (String dquote (s ++ str1 dquote)) with (str1 dquote ++ (s ++ str1 dquote)).
    rewrite !rune_count_append, E2. replace (rune_count (str1 dquote)) with 1 by (vm_compute; reflexivity). lia.
Qed.

(** A prefix of 69 runes is all that is left of a long constant. *)
Lemma take_runes_app n : forall a b, n <= rune_count a -> take_runes n (a ++ b) = take_runes n a \/ n = rune_count a.
Proof.
  induction n as [|n IHn]; intros a b.
  - intros _. induction a as [|c r IH].
    + now right.
    + cbn [append take_runes rune_count]. destruct (continues c).
      * destruct IH as [IH|IH]; [left; now rewrite IH|now right].
      * now left.
  - intros H. revert H. induction a as [|c r IH]; intros H.
    + cbn in H. lia.
    + cbn [append take_runes rune_count] in *. destruct (continues c).
      * destruct (IH H) as [E|E]; [left; now rewrite E|now right].
      * destruct (IHn r b) as [E|E]; [lia|left; now rewrite E|right; lia].
Qed.

Lemma quote_body_app a b : quote_body (a ++ b) = quote_body a ++ quote_body b.
Proof. induction a as [|c r IH]; [reflexivity|]. cbn [append quote_body]. now rewrite IH, append_assoc. Qed.

Lemma long_constants p a b : plain p -> 69 <= String.length p -> 72 < rune_count (Quote (p ++ a)) ->
  72 < rune_count (Quote (p ++ b)) -> constant_String (CString (p ++ a)) = constant_String (CString (p ++ b)).
Proof.
  intros Hp L Ha Hb. rewrite (constant_long _ Ha), (constant_long _ Hb). f_equal.
  destruct (plain_quote p Hp) as [E1 E2]. unfold Quote. rewrite !quote_body_app, E1.
  rewrite !append_assoc. change (String dquote (p ++ quote_body a ++ str1 dquote)) with (String dquote p ++ (quote_body a ++ str1 dquote)).
  change (String dquote (p ++ quote_body b ++ str1 dquote)) with (String dquote p ++ (quote_body b ++ str1 dquote)).
  assert (R : rune_count (String dquote p) = S (String.length p)) by (rewrite <- E2; reflexivity).
  destruct (take_runes_app 69 (String dquote p) (quote_body a ++ str1 dquote)) as [-> |E]; [lia| |lia].
  destruct (take_runes_app 69 (String dquote p) (quote_body b ++ str1 dquote)) as [-> |E]; [lia|reflexivity|lia].
Qed.

(** ** Integers *)
Lemma digits_in_decimal s z : digits_in 10 s z -> decimal s z.
Proof.
  induction 1.
  - apply decimal_one. lia.
  - change (Z.of_nat 10) with 10%Z. apply decimal_more; [auto|lia].
Qed.

Lemma parse_step c k r acc : digit_val c = Some k -> parse_digits acc (String c r) = parse_digits (acc * 10 + k) r.
Proof. intros H. cbn [parse_digits]. now rewrite H. Qed.

Lemma parse_uint_acc d : forall p,
  parse_digits (Z.pos p) (DecimalString.NilEmpty.string_of_uint d) = Some (Z.pos (Pos.of_uint_acc d p)).
Proof.
  induction d; intros p; [reflexivity|..];
    cbn [DecimalString.NilEmpty.string_of_uint Pos.of_uint_acc];
    erewrite parse_step by (vm_compute; reflexivity);
    rewrite <- IHd; f_equal; lia.
Qed.

Lemma parse_uint d : d <> Decimal.Nil ->
  parse_digits 0 (DecimalString.NilEmpty.string_of_uint d) = Some (Z.of_N (Pos.of_uint d)).
Proof.
  induction d; intros H; [now elim H|..]; cbn [DecimalString.NilEmpty.string_of_uint Pos.of_uint];
    (erewrite parse_step by (vm_compute; reflexivity)).
  { cbn [Z.mul Z.add]. destruct d; [reflexivity|..]; apply IHd; discriminate. }
  all: exact (parse_uint_acc _ _).
Qed.

Lemma itoa_parse z : (0 <= z)%Z -> parse_digits 0 (itoa z) = Some z /\ itoa z <> "".
Proof.
  intros Hz. unfold itoa.
  destruct z as [|p|p]; [split; [reflexivity|discriminate]| |lia].
  cbn [Z.to_int DecimalString.NilEmpty.string_of_int].
  pose proof (DecimalZ.of_to (Z.pos p)) as E. cbn [Z.to_int Z.of_int] in E. unfold Z.of_uint in E.
  assert (Hn : Pos.to_uint p <> Decimal.Nil).
  { intros Hn. rewrite Hn in E. discriminate. }
  rewrite (parse_uint _ Hn), E. split; [reflexivity|].
  destruct (Pos.to_uint p); [now elim Hn|..]; discriminate.
Qed.

Lemma parse_digits_first acc s z : parse_digits acc s = Some z -> forall c r, s = String c r -> digit_val c <> None.
Proof. intros H c r ->. cbn [parse_digits] in H. destruct (digit_val c); congruence. Qed.

Lemma ParseInt_digits s z : parse_digits 0 s = Some z -> s <> "" -> (0 <= z < 2 ^ 63)%Z -> ParseInt s = Some z.
Proof.
  intros H Hs Hz. destruct s as [|c r]; [now elim Hs|].
  pose proof (parse_digits_first _ _ _ H c r eq_refl) as Hc.
  assert (Hm : c <> "-"%char) by (intros ->; now apply Hc).
  assert (Hp : c <> "+"%char) by (intros ->; now apply Hc).
  assert (U : ParseUint (String c r) = Some z).
  { unfold ParseUint. rewrite H. unfold in_range.
    destruct (Z.leb_spec 0 z); [|lia]. destruct (Z.leb_spec z (2 ^ 64 - 1)); [reflexivity|lia]. }
  assert (R : in_range (- 2 ^ 63) (2 ^ 63 - 1) z = Some z).
  { unfold in_range. destruct (Z.leb_spec (- 2 ^ 63) z); [|lia].
    destruct (Z.leb_spec z (2 ^ 63 - 1)); [reflexivity|lia]. }
  clear H Hc. unfold ParseInt. destruct c as [[] [] [] [] [] [] [] []]; try congruence; rewrite U; exact R.
Qed.

Lemma ParseInt_itoa z : (- 2 ^ 63 <= z < 2 ^ 63)%Z -> ParseInt (itoa z) = Some z.
Proof.
  intros Hz. destruct (Z_le_gt_dec 0 z) as [H0|H0].
  - destruct (itoa_parse z H0) as [E1 E2]. apply ParseInt_digits; auto. lia.
  - assert (E : itoa z = String "-" (itoa (- z))) by (destruct z; try lia; reflexivity).
    rewrite E. destruct (itoa_parse (- z)) as [E1 E2]; [lia|].
    unfold ParseInt, ParseUint. destruct (itoa (- z)) as [|c r]; [now elim E2|]. rewrite E1. unfold in_range.
    destruct (Z.leb_spec 0 (- z)); [|lia]. destruct (Z.leb_spec (- z) (2 ^ 64 - 1)); [|lia]. cbn [andb].
    rewrite Z.opp_involutive.
    destruct (Z.leb_spec (- 2 ^ 63) z); [|lia]. destruct (Z.leb_spec z (2 ^ 63 - 1)); [reflexivity|lia].
Qed.

(** Octal digits read as decimal ones. *)
Lemma octal_read s z : digits_in 8 s z -> exists z', digits_in 10 s z' /\ (0 <= z <= z')%Z /\ ((8 <= z)%Z -> (z < z')%Z).
Proof.
  induction 1 as [c Hc|s z c H (z' & H' & Hz & Hl) Hc].
  - exists (Z.of_nat (nat_of_ascii c) - 48)%Z. split; [apply di_one; lia|]. split; [lia|]. lia.
  - exists (10 * z' + (Z.of_nat (nat_of_ascii c) - 48))%Z. split; [apply (di_more 10); [auto|lia]|].
    change (Z.of_nat 8) with 8%Z. split; [lia|]. intros. lia.
Qed.

Lemma zero_first s z : digits_in 10 s z -> digits_in 10 ("0" ++ s) z.
Proof.
  induction 1 as [c Hc|s z c H IH Hc].
  - replace (Z.of_nat (nat_of_ascii c) - 48)%Z with (Z.of_nat 10 * 0 + (Z.of_nat (nat_of_ascii c) - 48))%Z by lia.
    change ("0" ++ String c "") with (String "0" "" ++ String c ""). apply di_more; [|auto].
    apply (di_one 10 "0"%char). cbv. lia.
  - rewrite <- append_assoc. now apply di_more.
Qed.

Lemma octal_status s z : digits_in 8 s z ->
  exists z', digits_in 10 ("0" ++ s) z' /\ ((8 <= z)%Z -> (z < z')%Z) /\ ((z' < 2 ^ 63)%Z -> ParseInt ("0" ++ s) = Some z').
Proof.
  intros H. destruct (octal_read s z H) as (z' & H' & Hz & Hl). exists z'.
  split; [now apply zero_first|]. split; [exact Hl|]. intros Hr.
  apply decimal_int; [|exact Hr]. apply digits_in_decimal. now apply zero_first.
Qed.

Lemma parse_digits_bad : forall s acc c, has_char c s = true -> digit_val c = None -> parse_digits acc s = None.
Proof.
  induction s as [|d r IH]; intros acc c H Hc; [discriminate|]. cbn [has_char parse_digits] in *.
  destruct (digit_val d) as [k|] eqn:Ed; [|reflexivity]. apply (IH _ c); [|exact Hc].
  destruct (Ascii.eqb d c) eqn:E.
  - apply Ascii.eqb_eq in E. congruence.
  - rewrite Ascii.eqb_sym in E. now rewrite E in H || exact H.
Qed.

Lemma bad_status s c : has_char c s = true -> digit_val c = None -> ParseInt (String "0" s) = None.
Proof.
  intros H Hc. unfold ParseInt, ParseUint.
  rewrite (parse_digits_bad (String "0" s) 0 c); [reflexivity| |exact Hc].
  cbn [has_char]. now rewrite H, orb_true_r.
Qed.

(** ** Declarations *)
Lemma index_of_at name : forall pre k post, ~ In name pre -> index_of k name (pre ++ name :: post)%list = k + List.length pre.
Proof.
  induction pre as [|x r IH]; intros k post H; cbn [List.app index_of List.length].
  - rewrite String.eqb_refl. lia.
  - destruct (String.eqb_spec name x) as [-> |_]; [elim H; now left|].
    rewrite IH; [lia|]. intros Hi. apply H. now right.
Qed.

Lemma declares_value names values name x n : declares names values name x ->
  n = VSpec names values \/ n = VAssign names values -> decl_value name n = Ok x.
Proof.
  intros (pre & post & vpre & vpost & -> & Hn & -> & Hl) [-> | ->]; cbn [decl_value];
    rewrite (index_of_at name pre 0 post Hn); cbn [Nat.add]; rewrite <- Hl;
    rewrite nth_error_app2 by lia; rewrite Nat.sub_diag; reflexivity.
Qed.

Lemma const_value fuel env e v : names_const env e v -> Value (S fuel) env e = Ok (constant_String v).
Proof.
  intros [(name & o & -> & E)|(name & o & -> & E & Ep & El)]; cbn [Value].
  - now rewrite E.
  - rewrite Ep, El. unfold fuzzy. rewrite Nat.eqb_refl. now rewrite E.
Qed.

Lemma const_value_once fuel env e v : names_const_once env e v -> Value (S fuel) env e = Ok (constant_String v).
Proof.
  intros (name & o & -> & E & El & Hin & Hu). cbn [Value]. rewrite El.
  assert (F : fuzzy env (v_pkg env o) name o = Some o).
  { unfold fuzzy. destruct (Nat.eqb (v_pkg env o) (v_here env)); [reflexivity|].
    destruct (List.find _ _) as [[n' o']|] eqn:Ef.
    - apply find_some in Ef. destruct Ef as [Hi Hq]. apply String.eqb_eq in Hq. cbn in Hq. subst n'.
      now rewrite (Hu _ Hi).
    - exfalso. pose proof (find_none _ _ Ef _ Hin) as Hq. cbn in Hq. now rewrite String.eqb_refl in Hq. }
  rewrite F. now rewrite E.
Qed.

Lemma raw_keeps s : trim_quotes (String (ascii_of_nat 96) (s ++ String (ascii_of_nat 96) ""))
  = String (ascii_of_nat 96) (s ++ String (ascii_of_nat 96) "").
Proof.
  unfold trim_quotes, trim_char. cbn [trim_left_char]. replace (Ascii.eqb _ _) with false by reflexivity.
  apply trim_right_id. intros p E.
  change (String (ascii_of_nat 96) (s ++ String (ascii_of_nat 96) "")) with ((String (ascii_of_nat 96) s) ++ String (ascii_of_nat 96) "") in E.
  revert p E. generalize (String (ascii_of_nat 96) s). clear s. induction s as [|c r IH]; intros p E.
  - destruct p as [|d p]; [discriminate|]. cbn in E. injection E as _ E. destruct p; discriminate.
  - destruct p as [|d p].
    + cbn in E. injection E as _ E. destruct r; discriminate.
    + cbn [append] in E. injection E as _ E. now apply (IH p).
Qed.

Lemma without_length c s : String.length (without c s) <= String.length s.
Proof. induction s as [|d r IH]; [apply le_n|]. cbn [without]. destruct (Ascii.eqb d c); cbn [String.length]; lia. Qed.

Lemma initialised_value env e text : initialised env e text ->
  exists n, forall fuel, n <= fuel -> Value fuel env e = Ok (trim_quotes text).
Proof.
  induction 1 as [text|name o n names values x text Ho Hn Hd H (k & IH)].
  - exists 1. intros [|fuel] Hf; [lia|reflexivity].
  - exists (S k). intros [|fuel] Hf; [lia|]. cbn [Value]. rewrite Ho, (declares_value _ _ _ _ _ Hd Hn). cbn [bind].
    apply IH. lia.
Qed.

Lemma crash_value fuel env name o n names values pre post : v_obj env o = VVar (Some n) ->
  n = VSpec names values \/ n = VAssign names values ->
  names = (pre ++ name :: post)%list -> ~ In name pre -> List.length values <= List.length pre ->
  Value (S fuel) env (XIdent name (Some o)) = Panic.
Proof.
  intros Ho Hn -> Hp Hl. cbn [Value]. rewrite Ho.
  assert (E : nth_error values (index_of 0 name (pre ++ name :: post)%list) = None).
  { apply nth_error_None. rewrite (index_of_at name pre 0 post Hp). lia. }
  destruct Hn as [-> | ->]; cbn [decl_value]; now rewrite E.
Qed.

Lemma taken n s : n < rune_count s ->
  exists p c rest, s = p ++ String c rest /\ rune_count p = n /\ continues c = false /\ take_runes n s = p.
Proof.
  revert n; induction s as [|c r IH]; intros n H; cbn [rune_count] in H; [lia|]. cbn [take_runes].
  destruct (continues c) eqn:C.
  - destruct (IH n H) as (p & d & rest & -> & R & D & T). exists (String c p), d, rest. cbn [rune_count]. rewrite C, T. auto.
  - destruct n as [|n]; [exists "", c, r; auto|]. destruct (IH n) as (p & d & rest & -> & R & D & T); [lia|].
    exists (String c p), d, rest. cbn [rune_count]. rewrite C, T, R. auto.
Qed.

Lemma value_source fuel : forall env e w, Value fuel env e = Ok w -> source env e.
Proof.
  induction fuel as [|n IH]; intros env e w H; [discriminate|].
  assert (O : forall name o, match v_obj env o with
      | VConst v => Ok (constant_String v)
      | VVar None => Err "node not found"
      | VVar (Some nd) => x <- decl_value name nd ;; Value n env x end = Ok w -> object_source env o).
  { intros name o. destruct (v_obj env o) as [v|[nd|]] eqn:E; intros X; [econstructor; eauto| |discriminate].
    destruct (decl_value name nd) as [x|e'| |] eqn:D; try discriminate. cbn in X. apply IH in X.
    destruct nd as [names values|names values|]; cbn in D; [| |discriminate].
    all: destruct (nth_error values _) as [y|] eqn:NE; [|discriminate]; injection D as ->; apply nth_error_In in NE; eapply os_var; eauto. }
  destruct e as [text|text|name [o|]|name [o|]|]; cbn [Value] in H; try discriminate; try constructor; eauto.
  destruct (v_loads env (v_pkg env o)) eqn:L; [|discriminate].
  destruct (fuzzy env (v_pkg env o) name o) as [o'|] eqn:F; [|discriminate].
  apply (so_sel env name o o'); eauto. unfold fuzzy in F. destruct (Nat.eqb _ _); [injection F as <-; now left|].
  destruct (List.find _ _) as [[k x]|] eqn:FD; [|discriminate]. injection F as ->. apply find_some in FD as (I & Q).
  apply String.eqb_eq in Q. cbn in Q. subst. now right.
Qed.
