(** C34 and C59: the values the analysis reads off the source. *)
From Coq Require Import List String Ascii Bool ZArith Arith Lia.
From Verif Require Import BaseStr M_Types M_Tags M_OpenAPI M_TypeTrav M_Value S_Value P_Value.
Import ListNotations.
Local Open Scope string_scope.

(** ** C34 *)

(** Full statement of C34: for every string literal and constant, the name recorded is the string it
    stands for at run time. It is false; the theorems below say for exactly which literals it holds
    and what is recorded for the others. *)

(** For an interpreted string literal the recorded name is the run-time string if, and only if, the
    literal has no escapes. *)
Theorem C34_literal_partial : forall fuel env body v text,
  interpreted body v text ->
  exists w, Value (S fuel) env (XString text) = Ok w /\ (w = v <-> has_char "\" body = false).
Proof.
  intros fuel env body v text [-> H]. eexists. split; [reflexivity|]. exact (literal_exact body v H).
Qed.
Print Assumptions C34_literal_partial.

Definition no_env : venv := mkVE (fun _ => VVar None) (fun _ => 0) (fun _ => true) 0 (fun _ => []).

Example C34_nontrivial :
  interpreted "page" "page" (String dquote ("page" ++ str1 dquote)) /\
  interpreted (String backslash "t") (str1 (ascii_of_nat 9)) (String dquote (String backslash "t" ++ str1 dquote)).
Proof. repeat split; vm_compute; reflexivity. Qed.

Theorem C34_literal_refuted : exists body v text w,
  interpreted body v text /\ (forall fuel env, Value (S fuel) env (XString text) = Ok w) /\ w <> v.
Proof.
  exists ("a" ++ String backslash "tb"), ("a" ++ String (ascii_of_nat 9) "b"). eexists. eexists.
  split; [split; [reflexivity|vm_compute; reflexivity]|]. split; [reflexivity|]. vm_compute. discriminate.
Qed.
Print Assumptions C34_literal_refuted.

(** A raw string literal is never recorded as the string it stands for: the back quotes stay. *)
Theorem C34_raw : forall fuel env v text, raw v text ->
  Value (S fuel) env (XString text) = Ok text /\ text <> v.
Proof.
  intros fuel env v text (s & -> & _ & ->). cbn [Value]. rewrite raw_keeps. split; [reflexivity|].
  intros E. apply (f_equal String.length) in E.
  pose proof (without_length (ascii_of_nat 13) s). cbn [String.length] in E. rewrite length_append in E.
  cbn [String.length] in E. lia.
Qed.
Print Assumptions C34_raw.
Example C34_raw_nontrivial : raw "id" (String (ascii_of_nat 96) ("id" ++ str1 (ascii_of_nat 96))).
Proof. exists "id". repeat split; vm_compute; reflexivity. Qed.

Theorem C34_raw_refuted : exists v text w, raw v text /\
  (forall fuel env, Value (S fuel) env (XString text) = Ok w) /\ w <> v.
Proof.
  exists "id", (String (ascii_of_nat 96) ("id" ++ str1 (ascii_of_nat 96))), (String (ascii_of_nat 96) ("id" ++ str1 (ascii_of_nat 96))).
  split; [exact C34_raw_nontrivial|]. split; [|discriminate].
  intros fuel env. exact (proj1 (C34_raw fuel env _ _ C34_raw_nontrivial)).
Qed.
Print Assumptions C34_raw_refuted.

(** A string constant is never recorded as its value, unless it is very long: what is recorded is
    longer. *)
Theorem C34_constant : forall fuel env e s,
  names_const env e (CString s) \/ names_const_once env e (CString s) ->
  rune_count (Quote s) <= 72 ->
  exists w, Value (S fuel) env e = Ok w /\ w <> s /\ String.length s + 2 <= String.length w.
Proof.
  intros fuel env e s H L. exists (Quote s). rewrite <- (constant_short s L).
  split; [destruct H as [H|H]; [now apply const_value|now apply const_value_once]|].
  rewrite (constant_short s L). split; [apply Quote_differs|apply Quote_length].
Qed.
Print Assumptions C34_constant.

(** For an ordinary constant it is the constant in double quotes. *)
Theorem C34_constant_plain : forall fuel env e s,
  names_const env e (CString s) \/ names_const_once env e (CString s) ->
  plain s -> String.length s <= 70 ->
  Value (S fuel) env e = Ok (str1 (ascii_of_nat 34) ++ s ++ str1 (ascii_of_nat 34)).
Proof.
  intros fuel env e s H Hp L. change (str1 (ascii_of_nat 34) ++ s ++ str1 (ascii_of_nat 34)) with (String dquote (s ++ str1 dquote)).
  rewrite <- (plain_constant s Hp L).
  destruct H as [H|H]; [now apply const_value|now apply const_value_once].
Qed.
Print Assumptions C34_constant_plain.

(** Two constants that agree on their first 69 characters are recorded under the same name if both
    are long. *)
Theorem C34_constants_collide : forall fuel env e1 e2 p a b,
  names_const env e1 (CString (p ++ a)) -> names_const env e2 (CString (p ++ b)) ->
  plain p -> 69 <= String.length p -> 2 <= rune_count a -> plain a -> 2 <= rune_count b -> plain b ->
  Value (S fuel) env e1 = Value (S fuel) env e2.
Proof.
  assert (Long : forall p a, plain p -> 69 <= String.length p -> 2 <= rune_count a -> plain a ->
                 72 < rune_count (Quote (p ++ a))).
  { intros p a Hp Hl Ha Hpa. destruct (plain_quote p Hp) as [E1 E2]. destruct (plain_quote a Hpa) as [E3 _].
    unfold Quote. rewrite quote_body_app, E1, E3.
    change (String dquote ((p ++ a) ++ str1 dquote)) with (str1 dquote ++ ((p ++ a) ++ str1 dquote)).
    rewrite !rune_count_append, E2. replace (rune_count (str1 dquote)) with 1 by (vm_compute; reflexivity). lia. }
  intros fuel env e1 e2 p a b H1 H2 Hp Hl Ha Hpa Hb Hpb.
  rewrite (const_value _ _ _ _ H1), (const_value _ _ _ _ H2). f_equal. apply long_constants; auto.
Qed.
Print Assumptions C34_constants_collide.

Definition const_env (v : constval) : venv := mkVE (fun _ => VConst v) (fun _ => 0) (fun _ => true) 0 (fun _ => []).

Example C34_constant_nontrivial :
  names_const (const_env (CString "page")) (XIdent "Key" (Some 7)) (CString "page") /\
  names_const (const_env (CString "page")) (XSel "Key" (Some 7)) (CString "page") /\
  names_const_once (mkVE (fun _ => VConst (CString "page")) (fun _ => 1) (fun _ => true) 0 (fun _ => [("x", 3); ("Key", 7)]))
    (XSel "Key" (Some 7)) (CString "page") /\
  plain "page" /\ rune_count (Quote "page") <= 72.
Proof.
  split; [left; exists "Key", 7; auto|]. split; [right; exists "Key", 7; auto|]. split.
  - exists "Key", 7. split; [reflexivity|]. split; [reflexivity|]. split; [reflexivity|]. split; [right; now left|].
    intros o' [E|[E|[]]]; [discriminate|congruence].
  - split; [|vm_compute; repeat constructor]. cbn. repeat split; cbv; lia.
Qed.

Theorem C34_constant_refuted : exists env e s w,
  names_const env e (CString s) /\ (forall fuel, Value (S fuel) env e = Ok w) /\ w <> s.
Proof.
  exists (const_env (CString "page")), (XIdent "Key" (Some 7)), "page". eexists.
  split; [left; exists "Key", 7; auto|]. split; [reflexivity|]. vm_compute. discriminate.
Qed.
Print Assumptions C34_constant_refuted.

(** A constant that is longer still is cut: what is recorded are the first 69 characters of its quoted form, whole, and dots. *)
Theorem C34_constant_cut : forall fuel env e s,
  names_const env e (CString s) \/ names_const_once env e (CString s) ->
  72 < rune_count (Quote s) ->
  exists p c rest, Quote s = p ++ String c rest /\ rune_count p = 69 /\ continues c = false /\
                   Value (S fuel) env e = Ok (p ++ "...").
Proof.
  intros fuel env e s H L. destruct (taken 69 (Quote s)) as (p & c & rest & E & R & C & T); [lia|].
  exists p, c, rest. repeat (split; [assumption|]). rewrite <- T, <- (constant_long s L).
  destruct H as [H|H]; [now apply const_value|now apply const_value_once].
Qed.
Print Assumptions C34_constant_cut.

(** So C34_constant cannot be had for all lengths: one string of 72 characters is the name recorded for it. *)
Theorem C34_constant_fixed : exists s, 72 < rune_count (Quote s) /\ forall fuel env e,
  names_const env e (CString s) -> Value (S fuel) env e = Ok s.
Proof.
  assert (K : exists s, Nat.ltb 72 (rune_count (Quote s)) = true /\ constant_String (CString s) = s).
  { let s := eval vm_compute in (Nat.iter 69 (fun s => constant_String (CString s)) (Nat.iter 80 (fun s => "a" ++ s) "")) in
    exists s. split; vm_compute; reflexivity. }
  destruct K as (s & L & K). exists s. split; [now apply Nat.ltb_lt|].
  intros fuel env e H. now rewrite (const_value fuel env e _ H), K.
Qed.
Print Assumptions C34_constant_fixed.

(** A boolean constant is recorded as Go prints it. *)
Theorem C34_bool : forall fuel env e b,
  names_const env e (CBool b) \/ names_const_once env e (CBool b) ->
  Value (S fuel) env e = Ok (if b then "true" else "false").
Proof.
  intros fuel env e b H. change (if b then "true" else "false") with (constant_String (CBool b)).
  destruct H as [H|H]; [now apply const_value|now apply const_value_once].
Qed.
Print Assumptions C34_bool.

(** Nothing is made up: what is recorded comes from a literal or a constant the source leads to. *)
Theorem C34_nothing_made_up : forall fuel env e w, Value fuel env e = Ok w -> source env e.
Proof. exact value_source. Qed.
Print Assumptions C34_nothing_made_up.

Example C34_cut_nontrivial :
  forall s, s = Nat.iter 80 (fun s => String (ascii_of_nat 195) (String (ascii_of_nat 164) s)) "" ->
  names_const (const_env (CString s)) (XIdent "Key" (Some 7)) (CString s) /\ 72 < rune_count (Quote s) /\
  names_const (const_env (CBool true)) (XIdent "Flag" (Some 7)) (CBool true) /\
  (forall fuel, Value fuel no_env (XIdent "x" (Some 7)) <> Ok "") /\ ~ source no_env (XIdent "x" (Some 7)).
Proof.
  intros s E. split; [left; exists "Key", 7; split; reflexivity|]. split; [subst s; apply Nat.ltb_lt; vm_compute; reflexivity|].
  split; [left; exists "Flag", 7; auto|]. assert (N : ~ source no_env (XIdent "x" (Some 7))).
  { intros H. inversion H as [| |? ? O|]; subst. inversion O; discriminate. }
  split; [|exact N]. intros fuel E'. exact (N (C34_nothing_made_up _ _ _ _ E')).
Qed.

(** The constant of another package that is recorded depends on the iteration order of a map, if the
    name is also declared inside a function there. *)
Theorem C34_selector_refuted : exists env defs' e o v,
  e = XSel "Key" (Some o) /\ v_obj env o = VConst v /\
  Permutation.Permutation (v_defs env (v_pkg env o)) (defs' (v_pkg env o)) /\
  let env' := mkVE (v_obj env) (v_pkg env) (v_loads env) (v_here env) defs' in
  exists w w', (forall fuel, Value (S fuel) env e = Ok w) /\ (forall fuel, Value (S fuel) env' e = Ok w') /\ w <> w'.
Proof.
  exists (mkVE (fun o => VConst (CInt (Z.of_nat o))) (fun _ => 1) (fun _ => true) 0 (fun _ => [("Key", 3); ("Key", 7)])),
    (fun _ => [("Key", 7); ("Key", 3)]), (XSel "Key" (Some 7)), 7, (CInt 7).
  split; [reflexivity|]. split; [reflexivity|]. split; [apply Permutation.perm_swap|].
  cbv zeta. eexists. eexists. split; [reflexivity|]. split; [reflexivity|]. vm_compute. discriminate.
Qed.
Print Assumptions C34_selector_refuted.

(** A variable is followed to the literal it is declared with, through any number of others. (What
    the program assigns to it later is not looked at.) *)
Theorem C34_variable_partial : forall env e text body v,
  initialised env e text -> interpreted body v text -> has_char "\" body = false ->
  exists n, forall fuel, n <= fuel -> Value fuel env e = Ok v.
Proof.
  intros env e text body v H [-> Hu] Hb. destruct (initialised_value _ _ _ H) as (n & Hn). exists n.
  intros fuel Hf. rewrite (Hn fuel Hf). f_equal. now apply (literal_exact body v Hu).
Qed.
Print Assumptions C34_variable_partial.

Definition lit_id : string := String dquote ("id" ++ str1 dquote).
Definition var_env : venv := mkVE (fun o => match o with
  | 0 => VVar (Some (VSpec ["a"; "b"] [XOther; XString lit_id]))
  | 1 => VVar (Some (VAssign ["c"] [XIdent "b" (Some 0)]))
  | _ => VVar (Some (VSpec ["d"] [])) end) (fun _ => 0) (fun _ => true) 0 (fun _ => []).
Example C34_variable_nontrivial :
  initialised var_env (XIdent "c" (Some 1)) lit_id /\ interpreted "id" "id" lit_id /\ has_char "\" "id" = false.
Proof.
  split; [|repeat split; vm_compute; reflexivity].
  apply (in_var var_env "c" 1 (VAssign ["c"] [XIdent "b" (Some 0)]) ["c"] [XIdent "b" (Some 0)] (XIdent "b" (Some 0))); auto.
  { exists [], [], [], []. auto. }
  apply (in_var var_env "b" 0 (VSpec ["a"; "b"] [XOther; XString lit_id]) ["a"; "b"] [XOther; XString lit_id] (XString lit_id)); auto.
  { exists ["a"], [], [XOther], []. split; [reflexivity|]. split; [|auto]. intros [E|[]]. discriminate. }
  apply in_lit.
Qed.

(** A variable declared without a value of its own (var x string; a, b := f()) crashes the
    generation. *)
Theorem C34_variable_crash : forall fuel env name o n names values pre post,
  v_obj env o = VVar (Some n) -> n = VSpec names values \/ n = VAssign names values ->
  names = (pre ++ name :: post)%list -> ~ In name pre -> List.length values <= List.length pre ->
  Value (S fuel) env (XIdent name (Some o)) = Panic.
Proof. exact crash_value. Qed.
Print Assumptions C34_variable_crash.

Theorem C34_variable_refuted : exists env name o,
  v_obj env o = VVar (Some (VSpec [name] [])) /\ forall fuel, Value (S fuel) env (XIdent name (Some o)) = Panic.
Proof. exists var_env, "d", 5. split; reflexivity. Qed.
Print Assumptions C34_variable_refuted.

(** ** C59 *)

(** Full statement of C59: the status code documented for c.JSON(x, ...) is the value of x, for every
    integer literal and constant of type int. It holds for decimal literals and for constants. *)
Theorem C59_decimal_partial : forall fuel env s z,
  digits_in 10 s z -> s = "0" \/ has_prefix "0" s = false -> (z < 2 ^ 63)%Z ->
  exists w, Value (S fuel) env (XLit s) = Ok w /\ ParseInt w = Some z.
Proof.
  intros fuel env s z H _ Hz. exists s. split; [reflexivity|]. apply P_Fields.decimal_int; auto. now apply digits_in_decimal.
Qed.
Print Assumptions C59_decimal_partial.

Theorem C59_constant_partial : forall fuel env e z,
  names_const env e (CInt z) \/ names_const_once env e (CInt z) -> (- 2 ^ 63 <= z < 2 ^ 63)%Z ->
  exists w, Value (S fuel) env e = Ok w /\ ParseInt w = Some z.
Proof.
  intros fuel env e z H Hz. exists (constant_String (CInt z)).
  split; [destruct H as [H|H]; [now apply const_value|now apply const_value_once]|].
  now apply ParseInt_itoa.
Qed.
Print Assumptions C59_constant_partial.

Lemma status_200 : digits_in 10 "200" 200.
Proof.
  apply (di_more 10 "20" 20 "0"%char); [|cbv; lia]. apply (di_more 10 "2" 2 "0"%char); [|cbv; lia].
  apply (di_one 10 "2"%char). cbv. lia.
Qed.
Example C59_nontrivial : digits_in 10 "200" 200 /\ has_prefix "0" "200" = false /\
  names_const (const_env (CInt 404)) (XSel "StatusNotFound" (Some 1)) (CInt 404).
Proof.
  split; [exact status_200|]. split; [reflexivity|]. right. exists "StatusNotFound", 1. auto.
Qed.

(** An octal literal from 8 on is documented as another code, or fails the generation. *)
Theorem C59_octal : forall fuel env s z, digits_in 8 s z -> (8 <= z)%Z ->
  exists w, Value (S fuel) env (XLit ("0" ++ s)) = Ok w /\ ParseInt w <> Some z.
Proof.
  intros fuel env s z H Hz. exists ("0" ++ s). split; [reflexivity|].
  destruct (octal_read s z H) as (z' & H' & Hb & Hl). specialize (Hl Hz). apply zero_first, digits_in_decimal in H'.
  destruct (Z_lt_ge_dec z' (2 ^ 63)) as [L|L].
  - rewrite (P_Fields.decimal_int _ _ H' L). intros E. injection E. lia.
  - intros E. destruct (P_Fields.decimal_parse _ _ H') as (P & _ & _).
    cbn [append] in *. unfold ParseInt, ParseUint in E. rewrite P in E. unfold in_range in E.
    destruct (Z.leb_spec 0 z'), (Z.leb_spec z' (2 ^ 64 - 1)); cbn [andb] in E; try discriminate.
    destruct (Z.leb_spec (- 2 ^ 63) z'), (Z.leb_spec z' (2 ^ 63 - 1)); cbn [andb] in E; try discriminate.
    lia.
Qed.
Print Assumptions C59_octal.

Lemma octal_310 : digits_in 8 "310" 200.
Proof.
  apply (di_more 8 "31" 25 "0"%char); [|cbv; lia]. apply (di_more 8 "3" 3 "1"%char); [|cbv; lia].
  apply (di_one 8 "3"%char). cbv. lia.
Qed.
Theorem C59_octal_refuted : exists s z w z', int_literal s z /\
  (forall fuel env, Value (S fuel) env (XLit s) = Ok w) /\ ParseInt w = Some z' /\ z' <> z.
Proof.
  exists "0310", 200%Z, "0310", 310%Z. split; [exact (il_octal "310" 200 octal_310)|].
  split; [reflexivity|]. split; [vm_compute; reflexivity|lia].
Qed.
Print Assumptions C59_octal_refuted.

(** A literal with a base prefix or underscores has no status code: the generation fails. *)
Theorem C59_prefixed : forall fuel env s c, In c ["x"; "X"; "b"; "B"; "o"; "O"; "_"]%char ->
  has_char c s = true -> exists w, Value (S fuel) env (XLit (String "0" s)) = Ok w /\ ParseInt w = None.
Proof.
  intros fuel env s c Hc H. exists (String "0" s). split; [reflexivity|]. apply (bad_status s c H).
  repeat destruct Hc as [<- |Hc]; try (vm_compute; reflexivity). destruct Hc.
Qed.
Print Assumptions C59_prefixed.
Example C59_prefixed_nontrivial : has_char "x" "xC8" = true.
Proof. reflexivity. Qed.
