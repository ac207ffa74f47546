(** The comments of types: astTraversal/packageNode.go:201-244, and go/ast's CommentGroup.Text, which it calls. *)
From Coq Require Import List String Ascii Bool Arith.
From Verif Require Import BaseStr BaseMap M_Types M_TypeTrav.
Import ListNotations.
Local Open Scope string_scope.

(** ** Go's ast.CommentGroup.Text (go/ast/ast.go, standard library)

    A comment group is the list of its comments, each with its markers: // or /* and */. *)
Definition LF : ascii := ascii_of_nat 10.
(** isWhitespace of go/ast. *)
Definition isWhitespace (c : ascii) : bool :=
  let n := nat_of_ascii c in Nat.eqb n 32 || Nat.eqb n 9 || Nat.eqb n 10 || Nat.eqb n 13.
(** stripTrailingWhitespace *)
Fixpoint strip_ws (s : string) : string :=
  match s with
  | "" => ""
  | String c r => match strip_ws r with
                  | "" => if isWhitespace c then "" else String c ""
                  | r' => String c r'
                  end
  end.
(** A lower case letter or digit, as isDirective tests. *)
Definition low (c : ascii) : bool :=
  let n := nat_of_ascii c in (Nat.leb 97 n && Nat.leb n 122) || (Nat.leb 48 n && Nat.leb n 57).
(** The rest of isDirective: bytes of a-z and 0-9 up to the first colon, at least one, and one behind it. *)
Fixpoint directive_from (seen : bool) (s : string) : bool :=
  match s with
  | "" => false
  | String c r => if Ascii.eqb c ":"
                  then seen && match r with String d _ => low d | "" => false end
                  else low c && directive_from true r
  end.
(** isDirective, without the slashes *)
Definition isDirective (c : string) : bool :=
  has_prefix "line " c || has_prefix "extern " c || has_prefix "export " c || directive_from false c.
(** The lines of a text, without their trailing white space. *)
Definition plain_lines (s : string) : list string := map strip_ws (split LF s).
(** The lines of one comment. The parser gives no comment shorter than its markers. *)
Definition comment_lines (c : string) : list string :=
  match c with
  | String _ (String k r) =>
      if Ascii.eqb k "/" then
        match r with
        | "" => plain_lines ""
        | String d r' => if Ascii.eqb d " " then plain_lines r' else if isDirective r then [] else plain_lines r
        end
      else if Ascii.eqb k "*" then plain_lines (take (String.length r - 2) r)
      else plain_lines c
  | _ => []
  end.
(** Leading blank lines and the second and later of a run of blank lines removed; [blank]: the line before
    was blank, or there was none. *)
Fixpoint collapse (blank : bool) (l : list string) : list string :=
  match l with
  | [] => []
  | "" :: r => if blank then collapse true r else "" :: collapse true r
  | x :: r => x :: collapse false r
  end.
(** CommentGroup.Text. *)
Definition Text (g : list string) : string :=
  let l := collapse true (flat_map comment_lines g) in
  join (str1 LF) (match l with
                  | [] => []
                  | _ => if String.eqb (last l "") "" then l else l ++ [""]
                  end).

(** ** The comments of the types of a package *)

(** A specification of a type declaration, with the comment above it. *)
Record tspec := mkTS { ts_name : string; ts_doc : option (list string) }.
(** A declaration with the comment above it: import, const, var and type declarations, the specifications that
    are not of types being left out. Function declarations are left out of a file: the loop skips them. *)
Record gdecl := mkGD { gd_doc : option (list string); gd_specs : list tspec }.

(** packageNode.go:228-239: one specification *)
Definition add_spec (d : gdecl) (m : list (string * string)) (s : tspec) : list (string * string) :=
  match ts_doc s, gd_doc d with
  | None, None => m
  | Some c, _ => minsert (ts_name s) (Text c) m
  | None, Some c => minsert (ts_name s) (Text c) m
  end.
(** packageNode.go:209-244. The files are those of the package, loaded before (type.go:276); the map is
    built once. *)
Definition populateTypeDocMap (files : list (list gdecl)) : list (string * string) :=
  fold_left (fun m f => fold_left (fun m d => fold_left (add_spec d) (gd_specs d) m) f m) files [].
(** packageNode.go:202-207 *)
Definition FindDocForType (files : list (list gdecl)) (name : string) : option string :=
  mlookup name (populateTypeDocMap files).

(** type.go:272-288: the comment of a named type is looked up under the name of its object, in its package. *)
Definition with_docs (files : string -> list (list gdecl)) (env : TypeEnv) : TypeEnv :=
  mkTE (te_pkg env) (te_name env) (te_under env)
       (fun id => match te_pkg env id with
                  | None => ""
                  | Some p => match FindDocForType (files p) (te_name env id) with Some d => d | None => "" end
                  end)
       (te_loads env) (te_decls env) (te_floatOK env).
