(** What is at a position, and where the fields of structs are. *)
From Coq Require Import List String Bool Arith.
From Verif Require Import BaseStr M_Types M_TypeTrav M_Position.
Import ListNotations.
Local Open Scope string_scope.

(** A node of a tree. *)
Inductive within : stx -> stx -> Prop :=
| within_here s : within s s
| within_child s c n : In c (children s) -> within c n -> within s n.
(** An outermost node at a position: it is there, and nothing around it is. *)
Inductive outermost (pos : nat) : stx -> stx -> Prop :=
| outermost_here s : Pos s = pos -> outermost pos s s
| outermost_child s c n : Pos s <> pos -> In c (children s) -> outermost pos c n -> outermost pos s n.

(** The tokens that nodes begin with. *)
Fixpoint tokens (s : stx) : list nat := match s with
  | Tok _ p l => p :: flat_map tokens l
  | Lead _ b f a => (flat_map tokens b ++ tokens f ++ flat_map tokens a)%list
  end.

(** A package is laid out as the parser does: its files are at different places of a file set that was filled one after the other,
    and no two nodes of a file begin with the same token of their own. *)
Inductive filled : fileset -> Prop :=
| filled_none : filled []
| filled_add fs name size : filled fs -> name <> "" -> (forall f, In f fs -> tf_name f <> name) -> filled (AddFile name size fs).
Definition laid_out (L : loaded) : Prop :=
  filled (ld_files L) /\
  (forall s, In s (ld_syntax L) -> NoDup (tokens s) /\
    exists f, In f (ld_files L) /\ forall p, In p (tokens s) -> tf_base f <= p <= tf_base f + tf_size f) /\
  (forall a b l, ld_syntax L = (a ++ b :: l)%list -> forall s, In s a -> Filename (ld_files L) (Pos s) <> Filename (ld_files L) (Pos b)).

(** Syntax of fields. *)
Definition ident (np : string * nat) : stx := Tok (KOther (fst np)) (snd np) [].
Definition named_field (doc : string) (comments : list stx) (n : string * nat) (more : list (string * nat)) (rest : list stx) : stx :=
  Lead (KField (fst n :: map fst more) doc) comments (ident n) (map ident more ++ rest).
Definition embedded_field (doc : string) (comments : list stx) (type : stx) (rest : list stx) : stx :=
  Lead (KField [] doc) comments type rest.
Definition pointer (star : nat) (x : stx) : stx := Tok (KOther "*") star [x].
Definition selection (x : stx) (sel : string * nat) : stx := Lead (KOther ".") [] x [ident sel].
Definition instance (x : stx) (args : list stx) : stx := Lead (KOther "[") [] x args.
(** go/types: the name of an embedded field is that of its type, without package, star and arguments; its position is that of the name. *)
Inductive embeds : stx -> string * nat -> Prop :=
| embeds_name n : embeds (ident n) n
| embeds_of_package x n : embeds (selection (ident x) n) n
| embeds_instance t args n : embeds t n -> embeds (instance t args) n
| embeds_pointer star t n : embeds t n -> embeds (pointer star t) n.
(** The name is what the type begins with: it is neither behind a star nor of another package. *)
Inductive plain : stx -> Prop := plain_name n : plain (ident n) | plain_instance t args : plain t -> plain (instance t args).
(** A field of a struct in a file: its list begins with a brace. *)
Definition struct_field_of (file x : stx) : Prop := exists k brace l, within file (Tok k brace l) /\ In x l.

(** The variable that the type checker makes of a field at a position, seen by the code through packages as they are loaded. *)
Definition seen (world : string -> option loaded) (f : gfield gtype) (pos : nat) : Prop := forall p, gf_at f p = answer world pos p.
