(** JSON texts: what is written can be read, in one way only. *)
From Coq Require Import List String Ascii Bool ZArith NArith Arith Lia DecimalString.
From Verif Require Import BaseStr BaseMap M_Types M_OpenAPI M_Service M_Json S_Cache S_Json.
Import ListNotations.
Local Open Scope string_scope.

(** ** Strings *)
Lemma hex_ok k : k < 16 -> hex (hex_digit k) (N.of_nat k).
Proof.
  intros H. do 16 (destruct k as [|k]; [cbn; unfold hex, ord, hex_digit; cbn; first [left; split; [lia|reflexivity]|right; left; split; [lia|reflexivity]]|]). lia.
Qed.
Lemma hex0 : hex "0"%char 0.
Proof. left. split; [cbn; lia|reflexivity]. Qed.
Lemma ascii_chars short c t s : ord c < 128 -> chars t s -> chars (ascii_text short c t) (String c s).
Proof.
  intros L H. unfold ascii_text. fold (ord c).
  assert (Ec : forall n, ord c = n -> c = ascii_of_nat n) by (intros n <-; symmetry; apply ascii_nat_embedding).
  destruct (Nat.eqb_spec (ord c) 34) as [E|N1].
  { cbn. rewrite (Ec _ E). apply (ch_escape _ 34); auto. cbn. tauto. }
  destruct (Nat.eqb_spec (ord c) 92) as [E|N2].
  { cbn. rewrite (Ec _ E). apply (ch_escape _ 92); auto. cbn. tauto. }
  cbn [orb]. destruct (Nat.eqb_spec (ord c) 10) as [E|N3].
  { rewrite (Ec _ E). apply (ch_escape _ 10); auto. cbn. tauto. }
  destruct (Nat.eqb_spec (ord c) 13) as [E|N4].
  { rewrite (Ec _ E). apply (ch_escape _ 13); auto. cbn. tauto. }
  destruct (Nat.eqb_spec (ord c) 9) as [E|N5].
  { rewrite (Ec _ E). apply (ch_escape _ 9); auto. cbn. tauto. }
  destruct (short && Nat.eqb (ord c) 8) eqn:E8.
  { apply andb_prop in E8 as (_ & E). apply Nat.eqb_eq in E. rewrite (Ec _ E). apply (ch_escape _ 8); auto. cbn. tauto. }
  destruct (short && Nat.eqb (ord c) 12) eqn:E12.
  { apply andb_prop in E12 as (_ & E). apply Nat.eqb_eq in E. rewrite (Ec _ E). apply (ch_escape _ 12); auto. cbn. tauto. }
  destruct (Nat.ltb (ord c) 32 || Nat.eqb (ord c) 38 || Nat.eqb (ord c) 60 || Nat.eqb (ord c) 62) eqn:EU.
  - unfold unicode_escape.
    replace (String c s) with (encoding (N.of_nat (ord c)) ++ s).
    2:{ unfold encoding. replace (N.of_nat (ord c) <? 128)%N with true by (symmetry; apply N.ltb_lt; lia).
        cbn. unfold byte. change (ascii_of_N (N.of_nat (ord c))) with (ascii_of_nat (ord c)). unfold ord. now rewrite ascii_nat_embedding. }
    change ("\u00" ++ String (hex_digit (ord c / 16)) (String (hex_digit (ord c mod 16)) t))
      with ("\u" ++ String "0" (String "0" (String (hex_digit (ord c / 16)) (String (hex_digit (ord c mod 16)) ""))) ++ t).
    apply ch_unicode; auto; [|left; lia].
    exists "0"%char, "0"%char, (hex_digit (ord c / 16)), (hex_digit (ord c mod 16)), 0%N, 0%N, (N.of_nat (ord c / 16)), (N.of_nat (ord c mod 16)).
    split; [reflexivity|]. split; [apply hex0|]. split; [apply hex0|].
    split; [apply hex_ok; apply Nat.div_lt_upper_bound; lia|]. split; [apply hex_ok; apply Nat.mod_upper_bound; lia|].
    rewrite (Nat.div_mod (ord c) 16) at 1 by lia. lia.
  - apply Bool.orb_false_iff in EU as (EU & _). apply Bool.orb_false_iff in EU as (EU & _). apply Bool.orb_false_iff in EU as (EU & _).
    apply Nat.ltb_ge in EU. apply ch_plain; auto.
Qed.
Lemma plain_high c t s : 128 <= ord c -> chars t s -> chars (String c t) (String c s).
Proof. intros L. apply ch_plain; lia. Qed.
Lemma ord_lt c : ord c < 256.
Proof. apply nat_ascii_bounded. Qed.
Ltac nats := repeat match goal with
  | |- context [Nat.ltb ?a ?b] => first [rewrite (proj2 (Nat.ltb_lt a b)) by lia | rewrite (proj2 (Nat.ltb_ge a b)) by lia]
  | |- context [Nat.leb ?a ?b] => first [rewrite (proj2 (Nat.leb_le a b)) by lia | rewrite (proj2 (Nat.leb_gt a b)) by lia]
  | |- context [Nat.eqb ?a ?b] => first [rewrite (proj2 (Nat.eqb_eq a b)) by lia | rewrite (proj2 (Nat.eqb_neq a b)) by lia]
  end; cbn [andb orb].
Lemma separator_chars e t s : ord e = 168 \/ ord e = 169 -> chars t s ->
  chars ("\u202" ++ String (hex_digit (ord e - 160)) t) (String (ascii_of_nat 226) (String (ascii_of_nat 128) (String e s))).
Proof.
  intros He H.
  change ("\u202" ++ String (hex_digit (ord e - 160)) t) with ("\u" ++ String "2" (String "0" (String "2" (String (hex_digit (ord e - 160)) ""))) ++ t).
  assert (Ee : e = ascii_of_nat (ord e)) by (symmetry; apply ascii_nat_embedding).
  replace (String (ascii_of_nat 226) (String (ascii_of_nat 128) (String e s))) with (encoding (8064 + N.of_nat (ord e))%N ++ s)
    by (rewrite Ee at 2; destruct He as [-> | ->]; reflexivity).
  apply ch_unicode; auto; [|left; lia].
  exists "2"%char, "0"%char, "2"%char, (hex_digit (ord e - 160)), 2%N, 0%N, 2%N, (N.of_nat (ord e - 160)).
  split; [reflexivity|]. split; [left; split; [cbn; lia|reflexivity]|]. split; [apply hex0|]. split; [left; split; [cbn; lia|reflexivity]|].
  split; [apply hex_ok; lia|lia].
Qed.
(** One step of [chars_text]. *)
Lemma chars_step short c r : chars_text short (String c r) = (
      let n := ord c in
      if Nat.ltb n 128 then ascii_text short c (chars_text short r)
      else if Nat.leb 194 n && Nat.leb n 223 then
        match r with
        | String d r1 => if is_cont 128 191 d then String c (String d (chars_text short r1)) else "\ufffd" ++ chars_text short r
        | EmptyString => "\ufffd"
        end
      else if Nat.leb 224 n && Nat.leb n 239 then
        match r with
        | String d (String e r2) =>
            if is_cont (if Nat.eqb n 224 then 160 else 128) (if Nat.eqb n 237 then 159 else 191) d && is_cont 128 191 e
            then if Nat.eqb n 226 && Nat.eqb (ord d) 128 && (Nat.eqb (ord e) 168 || Nat.eqb (ord e) 169)
                 then "\u202" ++ String (hex_digit (ord e - 160)) (chars_text short r2)
                 else String c (String d (String e (chars_text short r2)))
            else "\ufffd" ++ chars_text short r
        | _ => "\ufffd" ++ chars_text short r
        end
      else if Nat.leb 240 n && Nat.leb n 244 then
        match r with
        | String d (String e (String f r3)) =>
            if is_cont (if Nat.eqb n 240 then 144 else 128) (if Nat.eqb n 244 then 143 else 191) d
               && is_cont 128 191 e && is_cont 128 191 f
            then String c (String d (String e (String f (chars_text short r3)))) else "\ufffd" ++ chars_text short r
        | _ => "\ufffd" ++ chars_text short r
        end
      else "\ufffd" ++ chars_text short r
      ).
Proof. reflexivity. Qed.
Lemma chars_written short s : utf8 s -> chars (chars_text short s) s.
Proof.
  induction 1; [constructor|rewrite chars_step; cbv zeta ..]; unfold byte_in, is_cont in *; change nat_of_ascii with ord in *; nats.
  - apply ascii_chars; auto; lia.
  - now repeat (apply plain_high; [lia|]).
  - now repeat (apply plain_high; [lia|]).
  - destruct (Nat.eqb_spec (ord a) 226) as [Ea|_]; cbn [andb]; [|now repeat (apply plain_high; [lia|])].
    destruct (Nat.eqb_spec (ord b) 128) as [Eb|_]; cbn [andb]; [|now repeat (apply plain_high; [lia|])].
    destruct (Nat.eqb (ord c) 168 || Nat.eqb (ord c) 169) eqn:Ec; [|now repeat (apply plain_high; [lia|])].
    replace a with (ascii_of_nat 226) by (rewrite <- Ea; apply ascii_nat_embedding).
    replace b with (ascii_of_nat 128) by (rewrite <- Eb; apply ascii_nat_embedding).
    apply separator_chars; auto. apply Bool.orb_true_iff in Ec as [Ec|Ec]; apply Nat.eqb_eq in Ec; auto.
  - now repeat (apply plain_high; [lia|]).
  - now repeat (apply plain_high; [lia|]).
  - now repeat (apply plain_high; [lia|]).
  - now repeat (apply plain_high; [lia|]).
  - now repeat (apply plain_high; [lia|]).
Qed.
Lemma string_written short s : utf8 s -> quoted_text (string_text short s) s.
Proof. intros U. exists (chars_text short s). split; [reflexivity|now apply chars_written]. Qed.

(** ** Values *)
Fixpoint jval_ind' (P : jval -> Prop) (Hn : P JNull) (Hb : forall b, P (JBool b)) (Ht : forall t, P (JNum t)) (Hs : forall s, P (JStr s))
  (Ha : forall l, Forall P l -> P (JArr l)) (Ho : forall l, Forall (fun kv => P (snd kv)) l -> P (JObj l)) (v : jval) {struct v} : P v :=
  match v with
  | JNull => Hn
  | JBool b => Hb b
  | JNum t => Ht t
  | JStr s => Hs s
  | JArr l => Ha l ((fix go (l : list jval) : Forall P l :=
      match l with [] => Forall_nil _ | x :: r => Forall_cons x (jval_ind' P Hn Hb Ht Hs Ha Ho x) (go r) end) l)
  | JObj l => Ho l ((fix go (l : list (string * jval)) : Forall (fun kv => P (snd kv)) l :=
      match l with [] => Forall_nil _ | x :: r => Forall_cons x (jval_ind' P Hn Hb Ht Hs Ha Ho (snd x)) (go r) end) l)
  end.
(** Strings are UTF-8 and numbers are numbers. *)
Fixpoint sound (v : jval) : Prop :=
  match v with
  | JNum t => number t
  | JStr s => utf8 s
  | JArr l => fold_right (fun x acc => sound x /\ acc) True l
  | JObj l => fold_right (fun kv acc => (utf8 (fst kv) /\ sound (snd kv)) /\ acc) True l
  | _ => True
  end.
Lemma sound_arr l : sound (JArr l) <-> Forall sound l.
Proof. cbn. induction l as [|x l IH]; cbn; [split; auto|]. rewrite IH, Forall_cons_iff. tauto. Qed.
Lemma sound_obj l : sound (JObj l) <-> Forall (fun kv => utf8 (fst kv) /\ sound (snd kv)) l.
Proof. cbn. induction l as [|x l IH]; cbn; [split; auto|]. rewrite IH, Forall_cons_iff. tauto. Qed.

Lemma white_app a b : white a -> white b -> white (a ++ b).
Proof. induction 1; cbn; intros; auto. constructor; auto. Qed.
Lemma spaces_white n : white (spaces n).
Proof. induction n; cbn; repeat constructor; auto. all: cbn; tauto. Qed.
Lemma newline_white n : white (newline n).
Proof. constructor; [cbn; tauto|apply spaces_white]. Qed.

Lemma join_cons sep x y r : join sep (x :: y :: r) = x ++ sep ++ join sep (y :: r).
Proof. reflexivity. Qed.
Lemma elements_join f w w' l : white w -> white w' -> l <> [] -> Forall (fun v => json (f v) v) l ->
  elements (w ++ join ("," ++ w) (map f l) ++ w') l.
Proof.
  intros W W' N H. induction H as [|v l Hv Hl IH]; [now elim N|]. destruct l as [|v' l].
  - cbn [map join String.concat]. now apply el_last.
  - cbn [map]. rewrite join_cons. rewrite !append_assoc.
    replace (w ++ f v ++ "," ++ w ++ join ("," ++ w) (f v' :: map f l) ++ w') with (w ++ f v ++ "" ++ "," ++ (w ++ join ("," ++ w) (map f (v' :: l)) ++ w')) by reflexivity.
    apply el_next; auto; [constructor|]. apply IH. discriminate.
Qed.
Lemma members_join f w w' l : white w -> white w' -> l <> [] ->
  Forall (fun kv => exists k t, f kv = k ++ ": " ++ t /\ quoted_text k (fst kv) /\ json t (snd kv)) l ->
  members (w ++ join ("," ++ w) (map f l) ++ w') l.
Proof.
  intros W W' N H. assert (W1 : white " ") by (repeat constructor; cbn; tauto).
  induction H as [|(k & v) l (kt & t & E & Hk & Hv) Hl IH]; [now elim N|]. cbn [fst snd] in *. destruct l as [|v' l].
  - cbn [map join String.concat]. rewrite E, !append_assoc.
    change (w ++ kt ++ ": " ++ t ++ w') with (w ++ kt ++ "" ++ ":" ++ " " ++ t ++ w'). apply me_last; auto; constructor.
  - cbn [map]. rewrite join_cons, E. rewrite !append_assoc.
    change (w ++ kt ++ ": " ++ t ++ "," ++ w ++ join ("," ++ w) (f v' :: map f l) ++ w')
      with (w ++ kt ++ "" ++ ":" ++ " " ++ t ++ "" ++ "," ++ (w ++ join ("," ++ w) (map f (v' :: l)) ++ w')).
    apply me_next; auto; try constructor. apply IH. discriminate.
Qed.
Lemma value_written short v : forall depth, sound v -> json (value_text short depth v) v.
Proof.
  induction v as [|b|t|s|l IH|l IH] using jval_ind'; intros depth S.
  - constructor.
  - destruct b; constructor.
  - now constructor.
  - apply js_string. now apply string_written.
  - apply sound_arr in S. destruct l as [|x l]; [apply (js_empty_array ""); constructor|].
    change (value_text short depth (JArr (x :: l)))
      with ("[" ++ newline (Datatypes.S depth) ++ join ("," ++ newline (Datatypes.S depth)) (map (value_text short (Datatypes.S depth)) (x :: l)) ++ newline depth ++ "]").
    rewrite <- (append_assoc _ _ "]"), <- (append_assoc _ _ "]"). apply js_array.
    apply elements_join; auto using newline_white; [discriminate|]. rewrite Forall_forall in *. intros v I. apply IH; auto.
  - apply sound_obj in S. destruct l as [|x l]; [apply (js_empty_object ""); constructor|].
    change (value_text short depth (JObj (x :: l)))
      with ("{" ++ newline (Datatypes.S depth) ++ join ("," ++ newline (Datatypes.S depth))
         (map (fun kv => string_text short (fst kv) ++ ": " ++ value_text short (Datatypes.S depth) (snd kv)) (x :: l)) ++ newline depth ++ "}").
    rewrite <- (append_assoc _ _ "}"), <- (append_assoc _ _ "}"). apply js_object.
    apply members_join; auto using newline_white; [discriminate|]. rewrite Forall_forall in *. intros v I.
    exists (string_text short (fst v)), (value_text short (Datatypes.S depth) (snd v)). split; [reflexivity|].
    specialize (S _ I) as (S1 & S2). split; [now apply string_written|]. apply IH; auto.
Qed.

(** ** A text stands for one value *)
Definition white_dec c : {white_char c} + {~ white_char c}.
Proof. unfold white_char. apply in_dec. apply Nat.eq_dec. Qed.
Definition begins (P : ascii -> Prop) (s : string) : Prop := match s with EmptyString => False | String c _ => P c end.
Lemma white_split w x w' x' : w ++ x = w' ++ x' -> white w -> white w' -> begins (fun c => ~ white_char c) x -> begins (fun c => ~ white_char c) x' ->
  w = w' /\ x = x'.
Proof.
  intros E W. revert w' E. induction W as [|c r Hc W IH]; intros w' E W' B B'; cbn in E.
  - destruct W' as [|c' r' Hc' W']; auto. subst x. cbn in B. now elim B.
  - destruct W' as [|c' r' Hc' W']; cbn in E.
    + subst x'. cbn in B'. now elim B'.
    + injection E as -> E. destruct (IH r' E W' B B') as (-> & ->). auto.
Qed.

(** Strings. *)
Lemma hex_fun c n n' : hex c n -> hex c n' -> n = n'.
Proof. unfold hex. intros [(A & ->)|[(A & ->)|(A & ->)]] [(B & ->)|[(B & ->)|(B & ->)]]; auto; lia. Qed.
Lemma hex4_split h n h' n' x x' : hex4 h n -> hex4 h' n' -> h ++ x = h' ++ x' -> h = h' /\ n = n' /\ x = x'.
Proof.
  intros (a & b & c & d & p & q & r & s & -> & H1 & H2 & H3 & H4 & ->) (a' & b' & c' & d' & p' & q' & r' & s' & -> & G1 & G2 & G3 & G4 & ->) E.
  cbn in E. injection E as -> -> -> -> ->.
  rewrite (hex_fun _ _ _ H1 G1), (hex_fun _ _ _ H2 G2), (hex_fun _ _ _ H3 G3), (hex_fun _ _ _ H4 G4). auto.
Qed.
Lemma escape_not_u n : ~ In ("u"%char, n) escapes.
Proof. cbn. intros H. repeat (destruct H as [H|H]; [discriminate H|]). destruct H. Qed.
Lemma escape_fun e n n' : In (e, n) escapes -> In (e, n') escapes -> n = n'.
Proof.
  cbn. intros H H'. repeat (destruct H as [H|H]; [injection H as <- <-; repeat (destruct H' as [H'|H']; [first [discriminate H'|now injection H' as <-]|]); destruct H'|]). destruct H.
Qed.
Lemma chars_split u s : chars u s -> forall u' s' r r', chars u' s' ->
  u ++ String (ascii_of_nat 34) r = u' ++ String (ascii_of_nat 34) r' -> u = u' /\ s = s' /\ r = r'.
Proof.
  assert (Q : ord (ascii_of_nat 34) = 34) by reflexivity.
  induction 1 as [|c t s A B C H IH|e n t s I H IH|h n t s Hh Hn H IH|h l n m t s Hh Hl Hn Hm H IH]; intros u' s' r r' H' E.
  - destruct H' as [|c' t' s0 A' B' C' H'| | |]; cbn in E; try discriminate; [|injection E as <- E; now elim B']. now injection E as ->.
  - destruct H' as [|c' t' s0 A' B' C' H'|e' n' t' s0 I' H'|h' n' t' s0 Hh' Hn' H'|h' l' n' m' t' s0 Hh' Hl' Hn' Hm' H']; cbn in E.
    + injection E as -> E. now elim B.
    + injection E as -> E. destruct (IH _ _ _ _ H' E) as (-> & -> & ->). auto.
    + injection E as -> E. now elim C.
    + injection E as -> E. now elim C.
    + injection E as -> E. now elim C.
  - destruct H' as [|c' t' s0 A' B' C' H'|e' n' t' s0 I' H'|h' n' t' s0 Hh' Hn' H'|h' l' n' m' t' s0 Hh' Hl' Hn' Hm' H']; cbn in E.
    + discriminate E.
    + injection E as <- E. now elim C'.
    + injection E as -> E. destruct (IH _ _ _ _ H' E) as (-> & -> & ->). now rewrite (escape_fun _ _ _ I I').
    + injection E as -> E. now apply escape_not_u in I.
    + injection E as -> E. now apply escape_not_u in I.
  - destruct H' as [|c' t' s0 A' B' C' H'|e' n' t' s0 I' H'|h' n' t' s0 Hh' Hn' H'|h' l' n' m' t' s0 Hh' Hl' Hn' Hm' H']; cbn in E.
    + discriminate E.
    + injection E as <- E. now elim C'.
    + injection E as <- E. now apply escape_not_u in I'.
    + injection E as E. rewrite !append_assoc in E. destruct (hex4_split _ _ _ _ _ _ Hh Hh' E) as (-> & -> & E').
      destruct (IH _ _ _ _ H' E') as (-> & -> & ->). auto.
    + injection E as E. rewrite !append_assoc in E. destruct (hex4_split _ _ _ _ _ _ Hh Hh' E) as (-> & -> & _). lia.
  - destruct H' as [|c' t' s0 A' B' C' H'|e' n' t' s0 I' H'|h' n' t' s0 Hh' Hn' H'|h' l' n' m' t' s0 Hh' Hl' Hn' Hm' H']; cbn in E.
    + discriminate E.
    + injection E as <- E. now elim C'.
    + injection E as <- E. now apply escape_not_u in I'.
    + injection E as E. rewrite !append_assoc in E. destruct (hex4_split _ _ _ _ _ _ Hh Hh' E) as (-> & -> & _). lia.
    + injection E as E. rewrite !append_assoc in E. destruct (hex4_split _ _ _ _ _ _ Hh Hh' E) as (-> & -> & E'). cbn in E'. injection E' as E'.
      rewrite !append_assoc in E'. destruct (hex4_split _ _ _ _ _ _ Hl Hl' E') as (-> & -> & E2).
      destruct (IH _ _ _ _ H' E2) as (-> & -> & ->). auto.
Qed.
Lemma quoted_split t s t' s' r r' : quoted_text t s -> quoted_text t' s' -> t ++ r = t' ++ r' -> t = t' /\ s = s' /\ r = r'.
Proof.
  intros (u & -> & H) (u' & -> & H') E. cbn in E. injection E as E. rewrite !append_assoc in E. cbn in E.
  destruct (chars_split _ _ H _ _ _ _ H' E) as (-> & -> & ->). auto.
Qed.

(** Numbers. *)
Definition number_char (c : ascii) : Prop := digit c \/ In (ord c) [43; 45; 46; 69; 101].
Inductive all_chars (P : ascii -> Prop) : string -> Prop :=
| ac_end : all_chars P ""
| ac_more c r : P c -> all_chars P r -> all_chars P (String c r).
Lemma all_app P a b : all_chars P a -> all_chars P b -> all_chars P (a ++ b).
Proof. induction 1; cbn; intros; auto. constructor; auto. Qed.
Lemma digits_chars t : digits t -> all_chars number_char t.
Proof. induction 1; repeat (constructor; auto); left; auto. Qed.
Lemma one_char n c : ord c = n -> In n [43; 45; 46; 69; 101] -> number_char c.
Proof. intros <- H. right. exact H. Qed.
Lemma number_chars t : number t -> all_chars number_char t /\ begins (fun c => digit c \/ ord c = 45) t.
Proof.
  intros (m & i & f & e & -> & Im & Hi & Hf & He).
  assert (Ai : all_chars number_char i).
  { destruct Hi as [|c Hc|c r Hc D]; [|constructor; [left; unfold digit; lia|constructor]|constructor; [left; unfold digit; lia|now apply digits_chars]].
    constructor; [left; unfold digit; cbn; lia|constructor]. }
  assert (Bi : begins (fun c => digit c \/ ord c = 45) i) by (destruct Hi; cbn; left; unfold digit; cbn; lia).
  split.
  - apply all_app; [destruct Im as [<-|[<-|[]]]; repeat constructor; right; cbn; tauto|]. apply all_app; auto. apply all_app.
    + destruct Hf as [|r D]; cbn; constructor; [right; cbn; tauto|]. now apply digits_chars.
    + destruct He as [|x sg r [-> | ->] Is D]; [constructor| |]; cbn; (constructor; [right; cbn; tauto|]);
        (apply all_app; [destruct Is as [<-|[<-|[<-|[]]]]; repeat constructor; right; cbn; tauto|now apply digits_chars]).
  - destruct Im as [<-|[<-|[]]]; cbn; auto. destruct i; [destruct Bi|exact Bi].
Qed.
(** What can follow a value. *)
Definition closed (r : string) : Prop := match r with EmptyString => True | String c _ => white_char c \/ In (ord c) [44; 93; 125] end.
Lemma closed_not_number c r : closed (String c r) -> ~ number_char c.
Proof. cbn. unfold number_char, digit, white_char. cbn. lia. Qed.
Lemma chars_maximal P t t' r r' : (forall c x, closed (String c x) -> ~ P c) -> all_chars P t -> all_chars P t' -> closed r -> closed r' ->
  t ++ r = t' ++ r' -> t = t' /\ r = r'.
Proof.
  intros N H. revert t'. induction H as [|c t Hc H IH]; intros t' H' C C' E; cbn in E.
  - destruct H' as [|c' t' Hc' H']; auto. subst r. now elim (N _ _ C).
  - destruct H' as [|c' t' Hc' H']; cbn in E.
    + subst r'. now elim (N _ _ C').
    + injection E as -> E. destruct (IH _ H' C C' E) as (-> & ->). auto.
Qed.
Lemma number_split t t' r r' : number t -> number t' -> closed r -> closed r' -> t ++ r = t' ++ r' -> t = t' /\ r = r'.
Proof. intros H H'. apply (chars_maximal number_char); [apply closed_not_number|now apply number_chars|now apply number_chars]. Qed.

(** Values. *)
Definition value_char (c : ascii) : Prop := ~ white_char c /\ ~ In (ord c) [44; 58; 93; 125].
Lemma json_begins t v : json t v -> begins value_char t.
Proof.
  intros H.
  assert (G : forall c, ~ In (ord c) [32; 9; 10; 13; 44; 58; 93; 125] -> value_char c).
  { intros c Hc. cbn in *. unfold value_char, white_char. cbn. lia. }
  destruct H as [| | |t Hn|t s (u & -> & _)| | | |]; try (cbn; apply G; cbn; lia).
  apply number_chars in Hn as (_ & B). destruct t as [|c x]; [destruct B|]. cbn. apply G. cbn in *. unfold digit in B. lia.
Qed.
Scheme json_rec1 := Induction for json Sort Prop
  with elements_rec1 := Induction for elements Sort Prop
  with members_rec1 := Induction for members Sort Prop.
Combined Scheme json_mutind from json_rec1, elements_rec1, members_rec1.
Lemma closed_white w c x : white w -> white_char c \/ In (ord c) [44; 93; 125] -> closed (w ++ String c x).
Proof. intros [|d w' D W] H; cbn; auto. Qed.
Lemma not_white w : begins value_char w -> begins (fun c => ~ white_char c) w.
Proof. destruct w; cbn; auto. now intros (A & _). Qed.
Lemma begins_app P a b : begins P a -> begins P (a ++ b).
Proof. destruct a; cbn; tauto. Qed.
Lemma quoted_begins t s : quoted_text t s -> begins (fun c => ord c = 34) t.
Proof. intros (u & -> & _). reflexivity. Qed.
Lemma begins_impl (P Q : ascii -> Prop) s : (forall c, P c -> Q c) -> begins P s -> begins Q s.
Proof. destruct s; cbn; auto. Qed.
Lemma number_first t r c x : number t -> t ++ r = String c x -> digit c \/ ord c = 45.
Proof. intros H E. apply number_chars in H as (_ & B). destruct t as [|d y]; [destruct B|]. cbn in E. injection E as -> _. exact B. Qed.
Ltac not_number := match goal with
  | N : number ?t, E : ?t ++ _ = String ?c _ |- _ => exfalso; pose proof (number_first _ _ _ _ N E) as X; unfold digit in X; cbn in X; lia
  | N : number ?t, E : String ?c _ = ?t ++ _ |- _ => exfalso; symmetry in E; pose proof (number_first _ _ _ _ N E) as X; unfold digit in X; cbn in X; lia end.
Lemma elements_begins t l : elements t l -> exists w x, t = w ++ x /\ white w /\ begins value_char x.
Proof.
  destruct 1 as [w t w' v W J W'|w t w' v t' l W J W' H]; apply json_begins in J.
  - exists w, (t ++ w'). auto using begins_app.
  - exists w, (t ++ w' ++ "," ++ t'). auto using begins_app.
Qed.
Lemma members_begins t l : members t l -> exists w x, t = w ++ x /\ white w /\ begins value_char x.
Proof.
  assert (G : forall k key, quoted_text k key -> begins value_char k).
  { intros k key Q. apply quoted_begins in Q. revert Q. apply begins_impl. intros c Hc. unfold value_char, white_char. cbn. lia. }
  destruct 1 as [w k w1 w2 t w3 key v W Q|w k w1 w2 t w3 key v t' l W Q]; apply G in Q.
  - exists w, (k ++ w1 ++ ":" ++ w2 ++ t ++ w3). auto using begins_app.
  - exists w, (k ++ w1 ++ ":" ++ w2 ++ t ++ w3 ++ "," ++ t'). auto using begins_app.
Qed.
Lemma empty_or_not w x r c y : white w -> white x -> begins value_char r -> (ord c = 93 \/ ord c = 125) -> w ++ String c y <> x ++ r.
Proof.
  intros W X B C E. assert (NW : ~ white_char c) by (unfold white_char; cbn; lia).
  destruct (white_split w (String c y) x r E W X) as (_ & E'); auto; [now apply not_white|]. subst r. cbn in B. unfold value_char in B. cbn in B. lia.
Qed.
Ltac sep := cbn; unfold white_char; cbn; lia.
Ltac val J := apply begins_app, not_white, (json_begins _ _ J).
Ltac quo Q := apply begins_app; refine (begins_impl _ _ _ _ (quoted_begins _ _ Q)); intros ? ?; unfold white_char; cbn; lia.
Ltac clo := apply closed_white; [assumption|right; cbn; tauto].
Lemma json_split :
  (forall t v, json t v -> forall t' v' r r', json t' v' -> t ++ r = t' ++ r' -> closed r -> closed r' -> t = t' /\ v = v' /\ r = r') /\
  (forall t l, elements t l -> forall t' l' r r', elements t' l' -> t ++ String "]" r = t' ++ String "]" r' -> t = t' /\ l = l' /\ r = r') /\
  (forall t l, members t l -> forall t' l' r r', members t' l' -> t ++ String "}" r = t' ++ String "}" r' -> t = t' /\ l = l' /\ r = r').
Proof.
  apply json_mutind.
  - intros t' v' r r' J E C C'. destruct J as [| | |? Nm|? ? (? & -> & ?)| | | |]; cbn in E; try discriminate E; try not_number. injection E as ->. auto.
  - intros t' v' r r' J E C C'. destruct J as [| | |? Nm|? ? (? & -> & ?)| | | |]; cbn in E; try discriminate E; try not_number. injection E as ->. auto.
  - intros t' v' r r' J E C C'. destruct J as [| | |? Nm|? ? (? & -> & ?)| | | |]; cbn in E; try discriminate E; try not_number. injection E as ->. auto.
  - intros t Nm t' v' r r' J E C C'. destruct J as [| | |? Nm'|? ? (? & -> & ?)| | | |]; try (cbn in E; not_number).
    destruct (number_split _ _ _ _ Nm Nm' C C' E) as (-> & ->). auto.
  - intros t s Q t' v' r r' J E C C'. destruct J as [| | |? Nm|? ? Q'| | | |]; try (destruct Q as (u & -> & Hu); cbn in E; first [discriminate E|not_number]).
    destruct (quoted_split _ _ _ _ _ _ Q Q' E) as (-> & -> & ->). auto.
  - intros w W t' v' r r' J E C C'. destruct J as [| | |? Nm|? ? (? & -> & ?)|w' W'|u l El|w' W'|u l Me]; cbn in E; try discriminate E; try not_number.
    + injection E as E. rewrite !append_assoc in E. destruct (white_split w _ w' _ E W W' ltac:(sep) ltac:(sep)) as (-> & E'). injection E' as ->. auto.
    + injection E as E. rewrite !append_assoc in E. destruct (elements_begins _ _ El) as (x & y & -> & X & B). rewrite append_assoc in E.
      exfalso. revert E. apply empty_or_not; auto using begins_app.
  - intros t l El IH t' v' r r' J E C C'. destruct J as [| | |? Nm|? ? (? & -> & ?)|w' W'|u l' El'|w' W'|u l' Me]; cbn in E; try discriminate E; try not_number.
    + injection E as E. rewrite !append_assoc in E. destruct (elements_begins _ _ El) as (x & y & -> & X & B). rewrite append_assoc in E.
      exfalso. symmetry in E. revert E. apply empty_or_not; auto using begins_app.
    + injection E as E. rewrite !append_assoc in E. destruct (IH _ _ _ _ El' E) as (-> & -> & ->). auto.
  - intros w W t' v' r r' J E C C'. destruct J as [| | |? Nm|? ? (? & -> & ?)|w' W'|u l El|w' W'|u l Me]; cbn in E; try discriminate E; try not_number.
    + injection E as E. rewrite !append_assoc in E. destruct (white_split w _ w' _ E W W' ltac:(sep) ltac:(sep)) as (-> & E'). injection E' as ->. auto.
    + injection E as E. rewrite !append_assoc in E. destruct (members_begins _ _ Me) as (x & y & -> & X & B). rewrite append_assoc in E.
      exfalso. revert E. apply empty_or_not; auto using begins_app.
  - intros t l Me IH t' v' r r' J E C C'. destruct J as [| | |? Nm|? ? (? & -> & ?)|w' W'|u l' El'|w' W'|u l' Me']; cbn in E; try discriminate E; try not_number.
    + injection E as E. rewrite !append_assoc in E. destruct (members_begins _ _ Me) as (x & y & -> & X & B). rewrite append_assoc in E.
      exfalso. symmetry in E. revert E. apply empty_or_not; auto using begins_app.
    + injection E as E. rewrite !append_assoc in E. destruct (IH _ _ _ _ Me' E) as (-> & -> & ->). auto.
  - intros w t w' v W J IH W' t' l' r r' El E.
    destruct El as [x u x' v2 X J2 X'|x u x' v2 u' l2 X J2 X' El]; rewrite !append_assoc in E;
      (destruct (white_split w _ x _ E W X ltac:(val J) ltac:(val J2)) as (-> & E1);
       destruct (IH _ _ _ _ J2 E1) as (-> & -> & E2); [clo|clo|];
       destruct (white_split w' _ x' _ E2 W' X' ltac:(sep) ltac:(sep)) as (-> & E3)); [|discriminate E3].
    injection E3 as ->. auto.
  - intros w t w' v t0 l W J IH W' El0 IH0 t' l' r r' El E.
    destruct El as [x u x' v2 X J2 X'|x u x' v2 u' l2 X J2 X' El]; rewrite !append_assoc in E;
      (destruct (white_split w _ x _ E W X ltac:(val J) ltac:(val J2)) as (-> & E1);
       destruct (IH _ _ _ _ J2 E1) as (-> & -> & E2); [clo|clo|];
       destruct (white_split w' _ x' _ E2 W' X' ltac:(sep) ltac:(sep)) as (-> & E3)); [discriminate E3|].
    injection E3 as E3. destruct (IH0 _ _ _ _ El E3) as (-> & -> & ->). auto.
  - intros w k w1 w2 t w3 key v W Q W1 W2 J IH W3 t' l' r r' Me E.
    destruct Me as [x k' x1 x2 u x3 key' v' X Q' X1 X2 J' X3|x k' x1 x2 u x3 key' v' u' l2 X Q' X1 X2 J' X3 Me]; rewrite !append_assoc in E;
      (destruct (white_split w _ x _ E W X ltac:(quo Q) ltac:(quo Q')) as (-> & E1);
       destruct (quoted_split _ _ _ _ _ _ Q Q' E1) as (-> & -> & E2);
       destruct (white_split w1 _ x1 _ E2 W1 X1 ltac:(sep) ltac:(sep)) as (-> & E3); injection E3 as E3;
       destruct (white_split w2 _ x2 _ E3 W2 X2 ltac:(val J) ltac:(val J')) as (-> & E4);
       destruct (IH _ _ _ _ J' E4) as (-> & -> & E5); [clo|clo|];
       destruct (white_split w3 _ x3 _ E5 W3 X3 ltac:(sep) ltac:(sep)) as (-> & E6)); [|discriminate E6].
    injection E6 as ->. auto.
  - intros w k w1 w2 t w3 key v t0 l W Q W1 W2 J IH W3 Me0 IH0 t' l' r r' Me E.
    destruct Me as [x k' x1 x2 u x3 key' v' X Q' X1 X2 J' X3|x k' x1 x2 u x3 key' v' u' l2 X Q' X1 X2 J' X3 Me]; rewrite !append_assoc in E;
      (destruct (white_split w _ x _ E W X ltac:(quo Q) ltac:(quo Q')) as (-> & E1);
       destruct (quoted_split _ _ _ _ _ _ Q Q' E1) as (-> & -> & E2);
       destruct (white_split w1 _ x1 _ E2 W1 X1 ltac:(sep) ltac:(sep)) as (-> & E3); injection E3 as E3;
       destruct (white_split w2 _ x2 _ E3 W2 X2 ltac:(val J) ltac:(val J')) as (-> & E4);
       destruct (IH _ _ _ _ J' E4) as (-> & -> & E5); [clo|clo|];
       destruct (white_split w3 _ x3 _ E5 W3 X3 ltac:(sep) ltac:(sep)) as (-> & E6)); [discriminate E6|].
    injection E6 as E6. destruct (IH0 _ _ _ _ Me E6) as (-> & -> & ->). auto.
Qed.
Lemma one_value t v v' : json t v -> json t v' -> v = v'.
Proof. intros J J'. apply (proj1 json_split _ _ J t v' "" "" J'); cbn; auto. Qed.
