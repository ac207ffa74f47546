(** Specifications for the type analysis. *)
From Coq Require Import List String Ascii Bool ZArith Arith Relations.
From Verif Require Import BaseStr M_Types M_TypeTrav.
Import ListNotations.
Local Open Scope string_scope.

(** ** The types a type is made of *)

(** [part env follow t t']: [t'] is an immediate part of [t]: what a pointer points to, an element,
    a map key, the type of an exported field; and, if [follow], the definition of a named type that
    belongs to a package. *)
Inductive part (env : TypeEnv) (follow : bool) : gtype -> gtype -> Prop :=
| part_pointer e : part env follow (GPointer e) e
| part_slice e : part env follow (GSlice e) e
| part_array n e : part env follow (GArray n e) e
| part_key k e : part env follow (GMap k e) k
| part_value k e : part env follow (GMap k e) e
| part_field fs f : In f fs -> gf_exported f = true -> part env follow (GStruct fs) (gf_type f)
| part_named id p : follow = true -> te_pkg env id = Some p -> part env follow (GNamed id) (te_under env id).

(** Parts of parts, any number of steps. *)
Definition reach (env : TypeEnv) (follow : bool) : gtype -> gtype -> Prop :=
  clos_refl_trans_1n _ (part env follow).

(** Going from part to part always comes to an end: no type contains itself. *)
Definition finite_type (env : TypeEnv) (follow : bool) (t : gtype) : Prop :=
  Acc (fun t' t0 => part env follow t0 t') t.

(** A program the analysis has no reason to reject: packages load, names are not empty, there are
    no channel or function types, and no field without a name is found by position. *)
Definition good_node (env : TypeEnv) (t : gtype) : Prop :=
  match t with
  | GOther => False
  | GBasic b _ => b <> ""
  | GNamed id => te_name env id <> "" /\ (forall p, te_pkg env id = Some p -> te_loads env p = true)
  | GStruct fs => forall f p d, In f fs -> gf_exported f = true -> gf_at f p <> Some (NField [] d)
  | _ => True
  end.
Definition analysable (env : TypeEnv) (pkg : string) (t : gtype) : Prop :=
  te_loads env pkg = true /\ forall t', reach env true t t' -> good_node env t'.

(** The package recorded for a type met in package [pkg]: that of the innermost last element. *)
Fixpoint described_in (env : TypeEnv) (pkg : option string) (t : gtype) : option string :=
  match t with
  | GNamed id => te_pkg env id
  | GPointer e | GSlice e | GArray _ e | GMap _ e => described_in env pkg e
  | GOther => None
  | _ => pkg
  end.
(** A named type whose definition is recorded under its own package: not a pointer, and not a
    slice, array or map of something from elsewhere. *)
Definition at_home (env : TypeEnv) (id : nat) : Prop :=
  (forall e, te_under env id <> GPointer e) /\
  described_in env (te_pkg env id) (te_under env id) = te_pkg env id.

(** ** What a field says about an element *)

(** [elem_of env t n p]: [t] is, behind pointers, the built-in type [n] ([p] empty; any for the
    interface types without a name) or the type [n] of package [p]. *)
Inductive elem_of (env : TypeEnv) : gtype -> string -> string -> Prop :=
| elem_basic b k : In b AcceptedTypes -> elem_of env (GBasic b k) b ""
| elem_any : elem_of env GInterface "any" ""
| elem_named id p : te_pkg env id = Some p -> ~ In (te_name env id) AcceptedTypes ->
    elem_of env (GNamed id) (te_name env id) p
| elem_pointer e n p : elem_of env e n p -> elem_of env (GPointer e) n p.

(** ** Constants *)

(** The decimal number a string of digits denotes. *)
Inductive decimal : string -> Z -> Prop :=
| decimal_one c : (48 <= nat_of_ascii c <= 57)%nat -> decimal (String c "") (Z.of_nat (nat_of_ascii c) - 48)
| decimal_more s z c : decimal s z -> (48 <= nat_of_ascii c <= 57)%nat ->
    decimal (s ++ String c "") (10 * z + (Z.of_nat (nat_of_ascii c) - 48)).
(** The value of a literal in Go, for a constant of the given kind: an interpreted string without
    escapes; a decimal integer (no leading zero, which would make it octal) in range; a float. *)
Definition lit_denotes (floatOK : string -> bool) (k : bkind) (text : string) (v : enumval) : Prop :=
  match k with
  | KString => exists s, text = String dquote (s ++ String dquote "") /\ has_char dquote s = false /\
                         has_char "\" s = false /\ v = EStr s
  | KInt | KIntN => exists z, decimal text z /\ (text = "0" \/ has_prefix "0" text = false) /\
                              (z < 2 ^ 63)%Z /\ v = EInt z
  | KUintN => exists z, decimal text z /\ (text = "0" \/ has_prefix "0" text = false) /\
                        (z < 2 ^ 64)%Z /\ v = EInt z
  | KFloat => floatOK text = true /\ v = EFloat text
  | _ => False
  end.

(** The constants a package declares, with the names of their types. *)
Definition declared (files : list (list decl)) : list (string * enumval) :=
  flat_map (flat_map (fun d => match d with DGen true specs => flat_map vs_declares specs | _ => [] end)) files.
(** The values of the constants of one type. *)
Definition values_of (name : string) (cs : list (string * enumval)) : list enumval :=
  map snd (filter (fun c => String.eqb (fst c) name) cs).

(** A spec that spells out the type and gives literals, if it declares constants of the type. *)
Definition plain_spec (floatOK : string -> bool) (k : bkind) (name : string) (v : vspec) : Prop :=
  (vs_type v = TxIdent name /\
   Forall2 (fun e c => exists text, e = VLit text /\ fst c = name /\ lit_denotes floatOK k text (snd c))
           (vs_values v) (vs_declares v)) \/
  (vs_type v <> TxIdent name /\ Forall (fun c => fst c <> name) (vs_declares v)).
Definition plain_consts (floatOK : string -> bool) (k : bkind) (name : string) (files : list (list decl)) : Prop :=
  forall file specs v, In file files -> In (DGen true specs) file -> In v specs ->
    plain_spec floatOK k name v.

(** ** Trimmed text *)
Definition spaces (s : string) : Prop := exists l, s = String.concat "" l /\ Forall (fun x => In x space_runes) l.
Definition trimmed (s m : string) : Prop :=
  exists l r, s = l ++ m ++ r /\ spaces l /\ spaces r /\
    (forall x m', In x space_runes -> m <> x ++ m' /\ m <> m' ++ x).
