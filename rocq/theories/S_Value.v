(** What Go says about literals and constants, for C34 and C59. *)
From Coq Require Import List String Ascii Bool ZArith Arith.
From Verif Require Import BaseStr M_Tags M_Value.
Import ListNotations.
Local Open Scope string_scope.

(** An interpreted string literal with the given text between the quotes, and the string it stands
    for at run time. *)
Definition interpreted (body v text : string) : Prop :=
  text = String (ascii_of_nat 34) (body ++ String (ascii_of_nat 34) "") /\ unquote body = Some v.

(** A raw string literal: between back quotes, none inside. Carriage returns do not count. *)
Fixpoint without (c : ascii) (s : string) : string :=
  match s with
  | "" => ""
  | String d r => if Ascii.eqb d c then without c r else String d (without c r)
  end.
Definition raw (v text : string) : Prop :=
  exists s, text = String (ascii_of_nat 96) (s ++ String (ascii_of_nat 96) "") /\
            has_char (ascii_of_nat 96) s = false /\ v = without (ascii_of_nat 13) s.

(** A string every byte of which is printable ASCII and neither a double quote nor a backslash. *)
Fixpoint plain (s : string) : Prop :=
  match s with
  | "" => True
  | String c r => let n := nat_of_ascii c in
                  (32 <= n < 127 /\ n <> 34 /\ n <> 92)%nat /\ plain r
  end.

(** Integers: a run of digits in a base, most significant first. *)
Inductive digits_in (base : nat) : string -> Z -> Prop :=
| di_one c : (48 <= nat_of_ascii c < 48 + base)%nat -> digits_in base (String c "") (Z.of_nat (nat_of_ascii c) - 48)
| di_more s z c : digits_in base s z -> (48 <= nat_of_ascii c < 48 + base)%nat ->
    digits_in base (s ++ String c "") (Z.of_nat base * z + (Z.of_nat (nat_of_ascii c) - 48)).

(** The integer literals of Go without underscores and without the 0b and 0o prefixes: decimal, legacy
    octal (a leading zero), and hexadecimal of decimal digits. *)
Inductive int_literal : string -> Z -> Prop :=
| il_decimal s z : digits_in 10 s z -> (s = "0" \/ has_prefix "0" s = false) -> int_literal s z
| il_octal s z : digits_in 8 s z -> int_literal ("0" ++ s) z.

(** An identifier that names a constant. *)
Definition names_const (env : venv) (e : vx) (v : constval) : Prop :=
  (exists name o, e = XIdent name (Some o) /\ v_obj env o = VConst v) \/
  (exists name o, e = XSel name (Some o) /\ v_obj env o = VConst v /\
     v_pkg env o = v_here env /\ v_loads env (v_here env) = true).

(** A selector that names a constant of another package in which the name is declared once only. *)
Definition names_const_once (env : venv) (e : vx) (v : constval) : Prop :=
  exists name o, e = XSel name (Some o) /\ v_obj env o = VConst v /\
    v_loads env (v_pkg env o) = true /\ In (name, o) (v_defs env (v_pkg env o)) /\
    forall o', In (name, o') (v_defs env (v_pkg env o)) -> o' = o.

(** The position of a name in a declaration, counted from the front. *)
Definition declares (names : list string) (values : list vx) (name : string) (x : vx) : Prop :=
  exists pre post vpre vpost, names = (pre ++ name :: post)%list /\ ~ In name pre /\
    values = (vpre ++ x :: vpost)%list /\ List.length vpre = List.length pre.

(** An expression that stands for a string literal, directly or through the declarations of variables
    that are not assigned again. *)
Inductive initialised (env : venv) : vx -> string -> Prop :=
| in_lit text : initialised env (XString text) text
| in_var name o n names values x text :
    v_obj env o = VVar (Some n) -> n = VSpec names values \/ n = VAssign names values ->
    declares names values name x -> initialised env x text -> initialised env (XIdent name (Some o)) text.

(** Where a value can come from: a literal, or a constant, in the place of the expression or at the end of a chain of
    declarations. A declared name stands for an expression written in its declaration. *)
Inductive source (env : venv) : vx -> Prop :=
| so_string text : source env (XString text)
| so_lit text : source env (XLit text)
| so_ident name o : object_source env o -> source env (XIdent name (Some o))
| so_sel name o o' : v_loads env (v_pkg env o) = true -> (o' = o \/ In (name, o') (v_defs env (v_pkg env o))) ->
    object_source env o' -> source env (XSel name (Some o))
with object_source (env : venv) : nat -> Prop :=
| os_const o v : v_obj env o = VConst v -> object_source env o
| os_var o n names values x : v_obj env o = VVar (Some n) -> n = VSpec names values \/ n = VAssign names values ->
    In x values -> source env x -> object_source env o.
