(** Small specifications of the library functions and tables the code relies on. *)
From Coq Require Import List String Ascii Bool ZArith Arith.
From Verif Require Import BaseStr M_Types M_Resolve M_FS P_FS.
Import ListNotations.
Local Open Scope string_scope.

(** The last element of a slash-separated path (path.Base): trailing slashes do not count. *)
Definition only_slashes (s : string) : Prop := forall a c b, s = a ++ String c b -> c = "/"%char.
Inductive base_name : string -> string -> Prop :=
| bn_empty : base_name "" "."
| bn_root p : p <> "" -> only_slashes p -> base_name p "/"
| bn_last dir b tail : b <> "" -> has_char "/" b = false -> only_slashes tail -> (dir = "" \/ exists d, dir = d ++ "/") ->
    base_name (dir ++ b ++ tail) b.

(** The integers a float64 holds exactly: 53 bits and a power of two. *)
Definition representable (r : Z) : Prop := exists m e, (0 <= e /\ Z.abs m < 2 ^ 53 /\ r = m * 2 ^ e)%Z.

(** What stands at a place that may be moved over another one (rename(2)): a file over a file, a directory over an empty one. *)
Definition replaces {C} (src dst : list string) (t : tree C) : Prop :=
  kind_at dst t = None \/
  (exists a b, kind_at src t = Some (KFile a) /\ kind_at dst t = Some (KFile b)) \/
  (kind_at src t = Some KDir /\ kind_at dst t = Some KDir /\ forall k, kind_at (dst ++ [k]) t = None).

(** What an assignment or a declaration names by an expression on its left: a variable, or a field reached from a variable by
    selections.  Elements of arrays and maps, and what pointers point to, have no name. *)
Inductive reached : ex -> Prop :=
| re_variable id name o : reached (EIdent id name o)
| re_field x id name : reached x -> reached (ESel x id name).
Inductive names_place : ex -> string -> Prop :=
| np_variable id name o : names_place (EIdent id name o) name
| np_field x id name : reached x -> names_place (ESel x id name) name.

(** The route constraints of Azure functions by the Go types of parameters: 32 and 64 bit integers, floating-point numbers,
    truth values, times, UUIDs; strings are taken to be letters. *)
Definition constraint_groups : list (string * list string) :=
  [("int", ["int32"; "uint32"]); ("long", ["int"; "int64"; "uint"; "uint64"]); ("float", ["float32"]); ("double", ["float"; "float64"]);
   ("bool", ["bool"]); ("datetime", ["time.Time"]); ("guid", ["github.com/google/uuid.UUID"]); ("alpha", ["string"])].
Definition has_constraint (type k : string) : Prop := exists types, In (k, types) constraint_groups /\ In type types.
