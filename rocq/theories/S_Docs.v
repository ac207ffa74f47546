(** What the comment of a type is and what it says, for C69. *)
From Coq Require Import List String Ascii Bool Arith.
From Verif Require Import BaseStr M_TypeTrav M_Docs.
Import ListNotations.
Local Open Scope string_scope.

(** A type is declared in a package, by this specification of this declaration. *)
Definition declares (files : list (list gdecl)) (d : gdecl) (s : tspec) : Prop :=
  exists f, In f files /\ In d f /\ In s (gd_specs d).
(** Go's rule: a name is declared once in a package. *)
Definition declared_once (files : list (list gdecl)) : Prop := forall d s d' s',
  declares files d s -> declares files d' s' -> ts_name s = ts_name s' -> d = d' /\ s = s'.
(** The comment of a type: the one above its specification or, without it, above the declaration. *)
Definition comment_above (d : gdecl) (s : tspec) : option (list string) :=
  match ts_doc s with Some c => Some c | None => gd_doc d end.

(** ** The text of a comment *)
Definition whitespace (c : ascii) : Prop := In (nat_of_ascii c) [32; 9; 10; 13].
Fixpoint all_whitespace (s : string) : Prop := match s with "" => True | String c r => whitespace c /\ all_whitespace r end.
(** [l] is [l'] and white space; [l'] does not end in it. *)
Definition stripped (l l' : string) : Prop :=
  (exists w, l = l' ++ w /\ all_whitespace w) /\ (forall s c, l' = s ++ str1 c -> ~ whitespace c).
Definition one_line (l : string) : Prop := has_char LF l = false.
Definition lower_or_digit (c : ascii) : Prop := 97 <= nat_of_ascii c <= 122 \/ 48 <= nat_of_ascii c <= 57.
Fixpoint all_low (s : string) : Prop := match s with "" => True | String c r => lower_or_digit c /\ all_low r end.

(** Directives: go:generate and the like, and those of line numbers and cgo. *)
Definition directive (l : string) : Prop :=
  (exists tool d arg, l = tool ++ ":" ++ String d arg /\ tool <> "" /\ all_low tool /\ lower_or_digit d) \/
  exists w arg, In w ["line "; "extern "; "export "] /\ l = w ++ arg.
(** The lines of a group of comments as they are written: line comments, with or without a space behind the slashes;
    block comments; and directives, which are no text. *)
Inductive writes : list string -> list string -> Prop :=
| wr_nil : writes [] []
| wr_empty g ls : writes g ls -> writes ("//" :: g) ("" :: ls)
| wr_line l g ls : one_line l -> writes g ls -> writes (("// " ++ l) :: g) (l :: ls)
| wr_tight c l g ls : c <> " "%char -> one_line (String c l) -> ~ directive (String c l) -> writes g ls -> writes (("//" ++ String c l) :: g) (String c l :: ls)
| wr_block bs g ls : bs <> [] -> Forall one_line bs -> writes g ls ->
    writes (("/*" ++ join (str1 LF) bs ++ "*/") :: g) (bs ++ ls)
| wr_directive l g ls : directive l -> writes g ls -> writes (("//" ++ l) :: g) ls.
(** What the scanner takes for a comment. *)
Definition comment (c : string) : Prop := (exists l, one_line l /\ c = "//" ++ l) \/ exists s, c = "/*" ++ s ++ "*/".

(** The paragraphs of lines: runs of lines that are not empty. *)
Definition empty_lines (l : list string) : Prop := Forall (fun x => x = "") l.
Inductive paragraphs : list string -> list (list string) -> Prop :=
| pg_end bs : empty_lines bs -> paragraphs bs []
| pg_cons bs p rest ps : empty_lines bs -> p <> [] -> Forall (fun x => x <> "") p ->
    (rest = [] \/ exists r, rest = "" :: r) -> paragraphs rest ps -> paragraphs (bs ++ p ++ rest) (p :: ps).

(** The text: paragraphs with an empty line between them, white space at the end of lines removed. *)
Definition text (ps : list (list string)) : string :=
  join (str1 LF ++ str1 LF) (map (join (str1 LF)) ps).
Definition comment_text (g : list string) (t : string) : Prop :=
  exists ls ls' ps, writes g ls /\ Forall2 stripped ls ls' /\ paragraphs ls' ps /\ t = text ps.
(** No space at either end. *)
Definition no_outer_space (t : string) : Prop := forall x m, In x space_runes -> t <> x ++ m /\ t <> m ++ x.
