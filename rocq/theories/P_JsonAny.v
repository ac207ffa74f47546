(** Values with any strings: what is written is JSON in UTF-8 all the same. *)
From Coq Require Import List String Ascii Bool ZArith NArith Arith Lia DecimalString.
From Verif Require Import BaseStr BaseMap M_Types M_OpenAPI M_Service M_Json S_Cache S_Json P_Cache P_Json P_JsonDoc.
Import ListNotations.
Local Open Scope string_scope.

Lemma utf8_app a b : utf8 a -> utf8 b -> utf8 (a ++ b).
Proof.
  induction 1; intros; cbn; [assumption|..];
    [apply utf8_1|apply utf8_2|apply utf8_3a|apply utf8_3b|apply utf8_3c|apply utf8_3d|apply utf8_4a|apply utf8_4b|apply utf8_4c]; auto.
Qed.
Lemma utf8_one c r : ord c < 128 -> utf8 r -> utf8 (String c r).
Proof. intros L U. apply utf8_1; auto. unfold byte_in. fold (ord c). lia. Qed.
Lemma hex_low k : k < 16 -> ord (hex_digit k) < 128.
Proof. intros L. unfold ord, hex_digit. destruct (Nat.ltb_spec k 10); rewrite nat_ascii_embedding; lia. Qed.
Lemma ascii_utf8 short c r : ord c < 128 -> utf8 r -> utf8 (ascii_text short c r).
Proof.
  intros L U. unfold ascii_text. fold (ord c). cbv zeta.
  repeat (match goal with |- utf8 (if ?b then _ else _) => destruct b end); auto using utf8_one;
    try (cbn; repeat (apply utf8_one; [cbn; lia|]); auto using utf8_one; fail).
  unfold unicode_escape. apply (utf8_app "\u00"); [latin|]. apply utf8_one; [apply hex_low; apply Nat.div_lt_upper_bound; lia|].
  apply utf8_one; [apply hex_low, Nat.mod_upper_bound; lia|auto].
Qed.
Definition well (short : bool) (s : string) : Prop := chars (chars_text short s) (json_string s) /\ utf8 (chars_text short s).
Lemma replaced t s : chars t s -> utf8 t -> chars (String "\" ("ufffd" ++ t)) (replacement s) /\ utf8 (String "\" ("ufffd" ++ t)).
Proof.
  intros H U. split; [|change (String "\" ("ufffd" ++ t)) with (String "\" "ufffd" ++ t); apply utf8_app; [latin|auto]].
  change (String "\" ("ufffd" ++ t)) with ("\u" ++ "fffd" ++ t). change (replacement s) with (encoding 65533 ++ s). apply ch_unicode; auto; [|right; lia].
  assert (F : hex "f" 15) by (right; left; split; [cbn; lia|reflexivity]).
  exists "f"%char, "f"%char, "f"%char, "d"%char, 15%N, 15%N, 15%N, 13%N. repeat split; auto. right. left. split; [cbn; lia|reflexivity].
Qed.
Lemma cont_spec lo hi c : is_cont lo hi c = true -> byte_in lo hi c.
Proof. unfold is_cont, byte_in. intros H. apply andb_prop in H as (A & B). apply Nat.leb_le in A, B. lia. Qed.
Ltac high := unfold byte_in in *; change nat_of_ascii with ord in *; lia.
Lemma chars_repaired short : forall n s, String.length s <= n -> well short s.
Proof.
  induction n as [|n IH]; intros s L.
  { destruct s; [split; constructor|cbn in L; lia]. }
  destruct s as [|a r]; [split; constructor|]. cbn [String.length] in L.
  destruct (IH r ltac:(lia)) as (Cr & Ur). assert (BAD := replaced _ _ Cr Ur).
  unfold well. rewrite json_cons, chars_step. cbv zeta. change nat_of_ascii with ord.
  destruct (Nat.ltb_spec (ord a) 128) as [La|La]; [split; [now apply ascii_chars|now apply ascii_utf8]|].
  destruct (Nat.leb 194 (ord a) && Nat.leb (ord a) 223) eqn:E2.
  { apply andb_prop in E2 as (A1 & A2). apply Nat.leb_le in A1, A2.
    destruct r as [|b r]; [exact (replaced "" "" ch_end utf8_end)|]. destruct (is_cont 128 191 b) eqn:Eb; [|exact BAD].
    apply cont_spec in Eb. cbn [String.length] in L. destruct (IH r ltac:(lia)) as (C & U).
    split; [repeat (apply plain_high; [high|]); auto|apply utf8_2; auto; high]. }
  destruct (Nat.leb 224 (ord a) && Nat.leb (ord a) 239) eqn:E3.
  { apply andb_prop in E3 as (A1 & A2). apply Nat.leb_le in A1, A2.
    destruct r as [|b [|c r]]; [exact BAD|exact BAD|]. destruct (is_cont _ _ b && is_cont 128 191 c) eqn:Eb; [|exact BAD].
    apply andb_prop in Eb as (B1 & B2). apply cont_spec in B1, B2. cbn [String.length] in L. destruct (IH r ltac:(lia)) as (C & U).
    destruct (Nat.eqb_spec (ord a) 226) as [Ea|Na]; cbn [andb].
    - destruct (Nat.eqb_spec (ord b) 128) as [Eb|Nb]; cbn [andb].
      + destruct (Nat.eqb (ord c) 168 || Nat.eqb (ord c) 169) eqn:Ec.
        * assert (Hc : ord c = 168 \/ ord c = 169) by (apply Bool.orb_true_iff in Ec as [Ec|Ec]; apply Nat.eqb_eq in Ec; auto).
          replace a with (ascii_of_nat 226) by (rewrite <- Ea; apply ascii_nat_embedding).
          replace b with (ascii_of_nat 128) by (rewrite <- Eb; apply ascii_nat_embedding).
          split; [apply separator_chars; auto|]. apply (utf8_app "\u202"); [latin|]. apply utf8_one; auto. apply hex_low. lia.
        * rewrite Ea in B1. cbn [Nat.eqb] in B1. split; [repeat (apply plain_high; [high|]); auto|]. apply utf8_3b; auto; high.
      + rewrite Ea in B1. cbn [Nat.eqb] in B1. split; [repeat (apply plain_high; [high|]); auto|]. apply utf8_3b; auto; high.
    - assert (Bb : 128 <= ord b) by (destruct (Nat.eqb (ord a) 224); high).
      split; [repeat (apply plain_high; [high|]); auto|].
      destruct (Nat.eqb_spec (ord a) 224) as [E|N]; [apply utf8_3a; auto; try high; destruct (Nat.eqb_spec (ord a) 237); high|].
      destruct (Nat.eqb_spec (ord a) 237) as [E|N']; [apply utf8_3c; auto; high|].
      destruct (le_lt_dec (ord a) 236); [apply utf8_3b; auto; high|apply utf8_3d; auto; high]. }
  destruct (Nat.leb 240 (ord a) && Nat.leb (ord a) 244) eqn:E4; [|exact BAD].
  apply andb_prop in E4 as (A1 & A2). apply Nat.leb_le in A1, A2.
  destruct r as [|b [|c [|d r]]]; [exact BAD|exact BAD|exact BAD|]. destruct (is_cont _ _ b && is_cont 128 191 c && is_cont 128 191 d) eqn:Eb; [|exact BAD].
  apply andb_prop in Eb as (B & B3). apply andb_prop in B as (B1 & B2). apply cont_spec in B1, B2, B3. cbn [String.length] in L. destruct (IH r ltac:(lia)) as (C & U).
  assert (Bb : 128 <= ord b) by (destruct (Nat.eqb (ord a) 240); high).
  split; [repeat (apply plain_high; [high|]); auto|].
  destruct (Nat.eqb_spec (ord a) 240) as [E|N]; [apply utf8_4a; auto; try high; destruct (Nat.eqb_spec (ord a) 244); high|].
  destruct (Nat.eqb_spec (ord a) 244) as [E|N']; [apply utf8_4c; auto; high|]. apply utf8_4b; auto; high.
Qed.
Lemma string_repaired short s : quoted_text (string_text short s) (json_string s) /\ utf8 (string_text short s).
Proof.
  destruct (chars_repaired short (String.length s) s (le_n _)) as (C & U). split; [exists (chars_text short s); split; [reflexivity|auto]|].
  unfold string_text. apply utf8_one; [cbn; lia|]. apply utf8_app; auto. apply utf8_one; [cbn; lia|apply utf8_end].
Qed.

(** A value with its strings repaired. *)
Fixpoint repaired (v : jval) : jval :=
  match v with
  | JStr s => JStr (json_string s)
  | JArr l => JArr (map repaired l)
  | JObj l => JObj (map (fun kv => (json_string (fst kv), repaired (snd kv))) l)
  | _ => v
  end.
Fixpoint numeric (v : jval) : Prop :=
  match v with
  | JNum t => number t
  | JArr l => fold_right (fun x acc => numeric x /\ acc) True l
  | JObj l => fold_right (fun kv acc => numeric (snd kv) /\ acc) True l
  | _ => True
  end.
Lemma numeric_arr l : numeric (JArr l) <-> Forall numeric l.
Proof. cbn. induction l as [|x l IH]; cbn; [split; auto|]. rewrite IH, Forall_cons_iff. tauto. Qed.
Lemma numeric_obj l : numeric (JObj l) <-> Forall (fun kv => numeric (snd kv)) l.
Proof. cbn. induction l as [|x l IH]; cbn; [split; auto|]. rewrite IH, Forall_cons_iff. tauto. Qed.
Lemma elements_map f g w w' (l : list jval) : white w -> white w' -> l <> [] -> Forall (fun v => json (f v) (g v)) l ->
  elements (w ++ join ("," ++ w) (map f l) ++ w') (map g l).
Proof.
  intros W W' N H. induction H as [|v l Hv Hl IH]; [now elim N|]. destruct l as [|v' l].
  - cbn [map join String.concat]. now apply el_last.
  - cbn [map]. rewrite join_cons. rewrite !append_assoc.
    replace (w ++ f v ++ "," ++ w ++ join ("," ++ w) (f v' :: map f l) ++ w') with (w ++ f v ++ "" ++ "," ++ (w ++ join ("," ++ w) (map f (v' :: l)) ++ w')) by reflexivity.
    apply el_next; auto; [constructor|]. apply IH. discriminate.
Qed.
Lemma members_map f (g : string * jval -> string * jval) w w' l : white w -> white w' -> l <> [] ->
  Forall (fun kv => exists k t, f kv = k ++ ": " ++ t /\ quoted_text k (fst (g kv)) /\ json t (snd (g kv))) l ->
  members (w ++ join ("," ++ w) (map f l) ++ w') (map g l).
Proof.
  intros W W' N H. assert (W1 : white " ") by (repeat constructor; cbn; tauto).
  induction H as [|kv l (kt & t & E & Hk & Hv) Hl IH]; [now elim N|]. destruct (g kv) as (k & v) eqn:Eg. cbn [fst snd] in *. destruct l as [|v' l].
  - cbn [map join String.concat]. rewrite E, Eg, !append_assoc.
    change (w ++ kt ++ ": " ++ t ++ w') with (w ++ kt ++ "" ++ ":" ++ " " ++ t ++ w'). apply me_last; auto; constructor.
  - cbn [map]. rewrite join_cons, E, Eg. rewrite !append_assoc.
    change (w ++ kt ++ ": " ++ t ++ "," ++ w ++ join ("," ++ w) (f v' :: map f l) ++ w')
      with (w ++ kt ++ "" ++ ":" ++ " " ++ t ++ "" ++ "," ++ (w ++ join ("," ++ w) (map f (v' :: l)) ++ w')).
    apply me_next; auto; try constructor. apply IH. discriminate.
Qed.
Lemma value_repaired short v : forall depth, numeric v -> json (value_text short depth v) (repaired v).
Proof.
  induction v as [|b|t|s|l IH|l IH] using jval_ind'; intros depth S.
  - constructor.
  - destruct b; constructor.
  - now constructor.
  - apply js_string. apply string_repaired.
  - apply numeric_arr in S. destruct l as [|x l]; [apply (js_empty_array ""); constructor|].
    change (value_text short depth (JArr (x :: l)))
      with ("[" ++ newline (Datatypes.S depth) ++ join ("," ++ newline (Datatypes.S depth)) (map (value_text short (Datatypes.S depth)) (x :: l)) ++ newline depth ++ "]").
    rewrite <- (append_assoc _ _ "]"), <- (append_assoc _ _ "]"). apply js_array.
    apply elements_map; auto using newline_white; [discriminate|]. rewrite Forall_forall in *. intros v I. apply IH; auto.
  - apply numeric_obj in S. destruct l as [|x l]; [apply (js_empty_object ""); constructor|].
    change (value_text short depth (JObj (x :: l)))
      with ("{" ++ newline (Datatypes.S depth) ++ join ("," ++ newline (Datatypes.S depth))
         (map (fun kv => string_text short (fst kv) ++ ": " ++ value_text short (Datatypes.S depth) (snd kv)) (x :: l)) ++ newline depth ++ "}").
    rewrite <- (append_assoc _ _ "}"), <- (append_assoc _ _ "}"). apply js_object.
    apply members_map; auto using newline_white; [discriminate|]. rewrite Forall_forall in *. intros v I.
    exists (string_text short (fst v)), (value_text short (Datatypes.S depth) (snd v)). split; [reflexivity|].
    split; [apply string_repaired|]. cbn [snd]. apply IH; auto.
Qed.
(** The text itself is UTF-8. *)
Lemma number_utf8 t : number t -> utf8 t.
Proof.
  assert (D : forall r, digits r -> utf8 r) by (induction 1; apply utf8_one; auto using utf8_end; unfold digit in *; lia).
  intros (m & i & f & e & -> & Hm & Hi & Hf & He). repeat apply utf8_app.
  - destruct Hm as [<-|[<-|[]]]; latin.
  - destruct Hi; [latin|apply utf8_one; [lia|apply utf8_end]|apply utf8_one; [lia|auto]].
  - destruct Hf; [apply utf8_end|apply utf8_app; [latin|auto]].
  - destruct He as [|x sign r [-> | ->] Hs Hr]; [apply utf8_end| |]; (apply utf8_app; [latin|]); (apply utf8_app; [|auto]); destruct Hs as [<-|[<-|[<-|[]]]]; latin.
Qed.
Lemma newline_utf8 n : utf8 (newline n).
Proof. unfold newline. apply utf8_one; [cbn; lia|]. induction n; [apply utf8_end|]. cbn [spaces]. apply utf8_app; [latin|auto]. Qed.
Lemma join_utf8 sep l : utf8 sep -> Forall utf8 l -> utf8 (join sep l).
Proof.
  intros S. induction 1 as [|x l Hx Hl IH]; [apply utf8_end|]. destruct l as [|y l]; [exact Hx|]. rewrite join_cons. auto using utf8_app.
Qed.
Lemma value_utf8 short v : forall depth, numeric v -> utf8 (value_text short depth v).
Proof.
  induction v as [|b|t|s|l IH|l IH] using jval_ind'; intros depth S.
  - cbn; latin.
  - destruct b; cbn; latin.
  - now apply number_utf8.
  - apply string_repaired.
  - apply numeric_arr in S. destruct l as [|x l]; [cbn; latin|].
    change (value_text short depth (JArr (x :: l)))
      with ("[" ++ newline (Datatypes.S depth) ++ join ("," ++ newline (Datatypes.S depth)) (map (value_text short (Datatypes.S depth)) (x :: l)) ++ newline depth ++ "]").
    apply utf8_app; [latin|]. apply utf8_app; [apply newline_utf8|]. apply utf8_app; [|apply utf8_app; [apply newline_utf8|latin]].
    apply join_utf8; [apply utf8_app; [latin|apply newline_utf8]|]. apply Forall_map. rewrite Forall_forall in *. intros v I. apply IH; auto.
  - apply numeric_obj in S. destruct l as [|x l]; [cbn; latin|].
    change (value_text short depth (JObj (x :: l)))
      with ("{" ++ newline (Datatypes.S depth) ++ join ("," ++ newline (Datatypes.S depth))
         (map (fun kv => string_text short (fst kv) ++ ": " ++ value_text short (Datatypes.S depth) (snd kv)) (x :: l)) ++ newline depth ++ "}").
    apply utf8_app; [latin|]. apply utf8_app; [apply newline_utf8|]. apply utf8_app; [|apply utf8_app; [apply newline_utf8|latin]].
    apply join_utf8; [apply utf8_app; [latin|apply newline_utf8]|]. apply Forall_map. rewrite Forall_forall in *. intros v I.
    apply utf8_app; [apply string_repaired|]. apply utf8_app; [latin|]. apply IH; auto.
Qed.

(** ** Documents *)
Definition numerics (l : obj) : Prop := Forall (fun kv => numeric (snd kv)) l.
Lemma numerics_app a b : numerics a -> numerics b -> numerics (a ++ b)%list.
Proof. intros A B. apply Forall_app. auto. Qed.
Lemma numerics_cons k v l : numeric v -> numerics l -> numerics ((k, v) :: l).
Proof. intros V L. constructor; auto. Qed.
Lemma numerics_nil : numerics [].
Proof. constructor. Qed.
Lemma numerics_text k s : numerics (text_member k s).
Proof. unfold text_member. destruct (String.eqb s ""); [apply numerics_nil|apply numerics_cons; cbn; auto using numerics_nil]. Qed.
Lemma numerics_flag k b : numerics (flag_member k b).
Proof. destruct b; [apply numerics_cons; cbn; auto using numerics_nil|apply numerics_nil]. Qed.
Lemma numerics_int k z : numerics (int_member k z).
Proof. unfold int_member. destruct (Z.eqb z 0); [apply numerics_nil|apply numerics_cons; cbn; auto using numerics_nil, itoa_number]. Qed.
Lemma numerics_list {A} k (f : A -> jval) l : Forall (fun a => numeric (f a)) l -> numerics (list_member k (map f l)).
Proof.
  intros H. unfold list_member. destruct (map f l) eqn:E; [apply numerics_nil|]. apply numerics_cons; auto using numerics_nil. rewrite <- E. apply numeric_arr. now apply Forall_map.
Qed.
Lemma numerics_map {A} k (f : A -> jval) (l : list (string * A)) : Forall (fun a => numeric (f (snd a))) l -> numerics (map_member k (map (fun ka => (fst ka, f (snd ka))) l)).
Proof.
  intros H. unfold map_member. destruct (map _ l) eqn:E; [apply numerics_nil|]. apply numerics_cons; auto using numerics_nil. rewrite <- E. apply numeric_obj. now apply Forall_map.
Qed.
Lemma numerics_opt {A} k (f : A -> jval) (x : option A) : (forall a, x = Some a -> numeric (f a)) ->
  numerics (opt_member k (match x with None => None | Some a => Some (f a) end)).
Proof. destruct x; intros H; [apply numerics_cons; auto using numerics_nil|apply numerics_nil]. Qed.
Ltac num := repeat first [apply numerics_app | apply numerics_text | apply numerics_flag | apply numerics_int | apply numerics_nil
  | apply numerics_list | apply numerics_map | apply numerics_opt | apply numerics_cons].
Section Numeric.
  Context (float : string -> string) (Hf : forall t, number (float t)).
  Lemma schema_numeric s : numeric (schema_json float s).
  Proof.
    induction s as [ref t f ml enum allOf items props addl desc IA II IP IAd] using Schema_ind'. cbn [schema_json].
    apply numeric_obj. fold numerics. num; auto. apply Forall_forall. intros [x|x|x|x] _; cbn; auto using itoa_number.
  Qed.
  Lemma media_numeric s : numeric (media_json float s).
  Proof. cbn. auto using schema_numeric. Qed.
  Lemma operation_numeric x : numeric (operation_json float x).
  Proof.
    apply numeric_obj. fold numerics. num.
    - apply Forall_forall. intros p _. apply numeric_obj. fold numerics. num. apply schema_numeric.
    - intros l _. apply numeric_obj. fold numerics. unfold content_json. num. apply Forall_forall. intros ? _. apply media_numeric.
    - apply Forall_forall. intros r _. apply numeric_obj. fold numerics. unfold content_json. num; [exact I| |].
      + apply Forall_forall. intros h _. apply numeric_obj. fold numerics. num. apply schema_numeric.
      + apply Forall_forall. intros ? _. apply media_numeric.
  Qed.
  Lemma document_numeric d : numeric (document_json float d).
  Proof.
    apply numeric_obj. fold numerics. num; try exact I.
    - apply numeric_obj. fold numerics. num; try exact I; (apply numeric_obj; fold numerics; num; exact I) || (apply numeric_obj; fold numerics; num).
    - apply Forall_forall. intros u _. apply numeric_obj. fold numerics. num.
    - apply Forall_forall. intros p _. apply numeric_obj. fold numerics. unfold operation_member. num; intros; apply operation_numeric.
    - apply numeric_obj. fold numerics. num. apply Forall_forall. intros ? _. apply schema_numeric.
  Qed.
End Numeric.
