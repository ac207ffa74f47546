(** What a copy of a main package is. *)
From Coq Require Import List String Ascii Bool Arith.
From Verif Require Import BaseStr.
Import ListNotations.
Local Open Scope string_scope.

(** ** Go source *)

Definition white (c : ascii) : bool := existsb (Nat.eqb (nat_of_ascii c)) [9; 10; 13; 32].
Definition line_end : ascii := ascii_of_nat 10.

(** White space and comments (the Go specification, Comments and Tokens). *)
Inductive blank : string -> Prop :=
| blank_nothing : blank ""
| blank_white c s : white c = true -> blank s -> blank (String c s)
| blank_line x s : has_char line_end x = false -> blank s -> blank ("//" ++ x ++ String line_end s)
| blank_general x s : contains "*/" (x ++ "*") = false -> blank s -> blank ("/*" ++ x ++ "*/" ++ s).

(** Letters and digits; the bytes of letters outside ASCII are taken for letters. *)
Definition ident_char (c : ascii) : bool :=
  let n := nat_of_ascii c in
  (Nat.leb 97 n && Nat.leb n 122) || (Nat.leb 65 n && Nat.leb n 90) || (Nat.leb 48 n && Nat.leb n 57) || Nat.eqb n 95 || Nat.leb 128 n.
Fixpoint all_ident (s : string) : bool :=
  match s with EmptyString => true | String c r => ident_char c && all_ident r end.
Definition ends_ident (s : string) : bool :=
  match s with EmptyString => true | String c _ => negb (ident_char c) end.

(** The package clause of a source text: what is before it, what is between the keyword and the name, and what follows. *)
Definition clause (text pre gap name post : string) : Prop :=
  text = pre ++ "package" ++ gap ++ name ++ post /\
  blank pre /\ blank gap /\ gap <> "" /\ name <> "" /\ all_ident name = true /\ ends_ident post = true.

(** The text with another package name and nothing else changed. *)
Definition renamed (old new text text' : string) : Prop :=
  exists pre gap post, clause text pre gap old post /\ text' = pre ++ "package" ++ gap ++ new ++ post.

(** ** go.mod *)

(** Lines of comments and empty lines. *)
Inductive comment_lines : string -> Prop :=
| no_lines : comment_lines ""
| empty_line s : comment_lines s -> comment_lines (String line_end s)
| comment_line x s : has_char line_end x = false -> comment_lines s -> comment_lines ("//" ++ x ++ String line_end s).

(** The text declares the module: a line with module and this path, after comments only. *)
Definition declares (text path : string) : Prop :=
  exists pre post, text = pre ++ "module " ++ path ++ String line_end post /\
    comment_lines pre /\ path <> "" /\ (forall c, has_char c path = true -> white c = false).

(** ** Replacing all occurrences: the texts between them stay. *)
Definition all_replaced (old new text text' : string) : Prop :=
  exists first rest, text = join old (first :: rest) /\ text' = join new (first :: rest) /\
    Forall (fun x => contains old x = false) (first :: rest).
