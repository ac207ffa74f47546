(** Specifications for handler names, route creation and the accumulating lists. *)
From Coq Require Import List String Ascii Bool ZArith Arith.
From Verif Require Import BaseStr M_Types M_Collect.
Import ListNotations.
Local Open Scope string_scope.

(** ** The Go linker's symbol names (cmd/internal/objabi.PathToPrefix): in a package path,
    control characters, space, percent, double quote and non-ASCII bytes, and dots after the last slash,
    are written %xx.  This is what runtime.Func.Name reports. *)
Definition hex_digit (n : nat) : ascii := nth n (list_ascii_of_string "0123456789abcdef") "0"%char.
Definition percent (c : ascii) : string :=
  let n := nat_of_ascii c in
  String "%" (String (hex_digit (Nat.div n 16)) (str1 (hex_digit (Nat.modulo n 16)))).
Definition always_escaped (c : ascii) : bool :=
  let n := nat_of_ascii c in
  Nat.leb n 32 || Ascii.eqb c "%" || Ascii.eqb c """" || Nat.leb 127 n.
Fixpoint mangle (pkg : string) : string :=
  match pkg with
  | EmptyString => EmptyString
  | String c r =>
      if always_escaped c || (Ascii.eqb c "." && negb (has_char "/" r))
      then percent c ++ mangle r
      else String c (mangle r)
  end.

(** The runtime name of the function reached through the given identifiers in a package:
    F for a function, then func1 for a closure in it; for a method value, the receiver in
    parentheses and then the method's name. *)
Definition runtime_name (pkg : string) (idents : list string) : string :=
  mangle pkg ++ "." ++ join "." idents.

Definition ident_like (s : string) : Prop := has_char "." s = false /\ has_char "/" s = false.

(** Identifiers each preceded by a dot. *)
Definition dotted (l : list string) : string := fold_right (fun x acc => "." ++ x ++ acc) "" l.

(** A package path in which the linker escapes nothing. *)
Fixpoint plain_pkg (pkg : string) : bool :=
  match pkg with
  | EmptyString => true
  | String c r => negb (always_escaped c || (Ascii.eqb c "." && negb (has_char "/" r))) && plain_pkg r
  end.

(** ** Route creation *)
Definition allowed (denyList : list (string -> bool)) (info : GinRoute) : Prop :=
  forall d, In d denyList -> d (gi_path info) = false.

(** [created rel deny infos rs]: [rs] are the routes of the allowed entries of [infos], in
    order. *)
Inductive created (rel : string -> option string) (deny : list (string -> bool))
  : list GinRoute -> list Route -> Prop :=
| cr_nil : created rel deny [] []
| cr_allow i is rs p :
    allowed deny i -> rel (gi_file i) = Some p -> created rel deny is rs ->
    created rel deny (i :: is)
      (mkRoute (gi_handler i) p (gi_line i) (gi_method i) (gi_path i) [] [] [] [] "" "" [] [] :: rs)
| cr_deny i is rs :
    ~ allowed deny i -> created rel deny is rs -> created rel deny (i :: is) rs.

(** ** Accumulating lists *)
Definition comp_key (f : Field) : string * string := (f_name f, f_package f).

(** The first occurrence of each key: [first_occ seen l] keeps the elements of [l] whose key is
    not in [seen] and did not occur before. *)
Inductive first_occ : list (string * string) -> list Field -> list Field -> Prop :=
| fo_nil seen : first_occ seen [] []
| fo_new seen x l out :
    ~ In (comp_key x) seen -> first_occ (comp_key x :: seen) l out -> first_occ seen (x :: l) (x :: out)
| fo_old seen x l out :
    In (comp_key x) seen -> first_occ seen l out -> first_occ seen (x :: l) out.

Definition ret_key (r : ReturnType) : string * string * Z * string :=
  (f_type (r_field r), f_package (r_field r), r_status r, r_contentType r).

(** Path and method identify a route. *)
Definition route_key (r : Route) : string * string := (rt_path r, rt_method r).
