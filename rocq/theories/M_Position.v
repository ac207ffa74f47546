(** Positions: go/token's file sets, go/ast's Pos, and astTraversal/packageNode.go:167-199 (ASTAtPos).

    Simplified: no line directives, which change the file name of a position. *)
From Coq Require Import List String Bool Arith.
From Verif Require Import BaseStr M_Types M_TypeTrav.
Import ListNotations.
Local Open Scope string_scope.

(** go/token: a file of a file set has the positions from its base up to its base plus its size, the end of the file included. *)
Record tfile := mkTF { tf_name : string; tf_base : nat; tf_size : nat }.
(** The files, the newest first. *)
Definition fileset := list tfile.
(** FileSet.AddFile with the next free base: 1 for the first file, and one is left free behind each. *)
Definition next_base (fs : fileset) : nat :=
  match fs with [] => 1 | f :: _ => tf_base f + tf_size f + 1 end.
(** The file set after AddFile. *)
Definition AddFile (name : string) (size : nat) (fs : fileset) : fileset := mkTF name (next_base fs) size :: fs.
(** FileSet.Position(pos).Filename; 0 is NoPos. *)
Definition Filename (fs : fileset) (pos : nat) : string :=
  if Nat.eqb pos 0 then "" else
  match find (fun f => Nat.leb (tf_base f) pos && Nat.leb pos (tf_base f + tf_size f)) fs with
  | Some f => tf_name f
  | None => ""
  end.

(** go/ast: what kinds of nodes the code tells apart (type.go:235). *)
Inductive kind := KField (names : list string) (doc : string) | KOther (what : string).
(** A node begins with a token of its own (a name, a keyword, an opening bracket), or with one of its children:
    an ast.Field with its first name or, if it has none, its type; a selection or an index with its operand; a function declaration
    with its type, an assignment with its left side, and so on.  Children are in the order in which ast.Walk visits them. *)
Inductive stx :=
| Tok (k : kind) (pos : nat) (children : list stx)
| Lead (k : kind) (before : list stx) (first : stx) (after : list stx).
(** The nodes below. *)
Definition children (s : stx) : list stx := match s with Tok _ _ l => l | Lead _ b f a => (b ++ f :: a)%list end.
(** The kind of node. *)
Definition kind_of (s : stx) : kind := match s with Tok k _ _ => k | Lead k _ _ _ => k end.
(** Node.Pos *)
Fixpoint Pos (s : stx) : nat := match s with Tok _ p _ => p | Lead _ _ f _ => Pos f end.

(** packageNode.go:177-188: ast.Inspect keeps the last node at the position that it meets, and does not go into it. *)
Fixpoint scan (pos : nat) (s : stx) (result : option stx) : option stx :=
  if Nat.eqb (Pos s) pos then Some s else
  match s with
  | Tok _ _ l => (fix go (l : list stx) (result : option stx) := match l with [] => result | c :: r => go r (scan pos c result) end) l result
  | Lead _ b f a =>
      (fix go (l : list stx) (result : option stx) := match l with [] => result | c :: r => go r (scan pos c result) end) a
        (scan pos f ((fix go (l : list stx) (result : option stx) := match l with [] => result | c :: r => go r (scan pos c result) end) b result))
  end.

(** A package as go/packages loads it: with a file set of its own (loadPackage.go:32: there is none in the configuration), which
    also has the files of the packages it imports, and its own files. *)
Record loaded := mkLoaded { ld_files : fileset; ld_syntax : list stx }.
(** packageNode.go:172-198 *)
Fixpoint at_in (fs : fileset) (pos : nat) (files : list stx) : option stx :=
  match files with
  | [] => None
  | f :: r => if String.eqb (Filename fs pos) (Filename fs (Pos f)) then scan pos f None else at_in fs pos r
  end.
(** packageNode.go:172-198. *)
Definition ASTAtPos (L : loaded) (pos : nat) : option stx := at_in (ld_files L) pos (ld_syntax L).

(** What type.go:233-238 makes of the answer, for the packages as they are loaded. *)
Definition node_of (s : stx) : astnode := match kind_of s with KField names doc => NField names doc | KOther _ => NOther end.
(** The node at the position in the package, if it is loaded. *)
Definition answer (world : string -> option loaded) (pos : nat) (p : string) : option astnode :=
  match world p with None => None | Some L => option_map node_of (ASTAtPos L pos) end.
