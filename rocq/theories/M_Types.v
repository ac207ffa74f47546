(** Data types of package astra (types.go, astTraversal/tags.go, config.go). *)
From Coq Require Import List String Ascii Bool ZArith.
From Verif Require Import BaseStr BaseMap.
Import ListNotations.
Local Open Scope string_scope.

(** What a Go function call can do: return, return an error, panic, or (for the
    recursive analyses) not have finished within the given fuel. *)
Inductive outcome (A : Type) : Type :=
| Ok (a : A)
| Err (e : string)
| Panic
| OutOfFuel.
Arguments Ok {A} a.
Arguments Err {A} e.
Arguments Panic {A}.
Arguments OutOfFuel {A}.

(** The rest of a function after a call, if the call returned. *)
Definition bind {A B} (o : outcome A) (f : A -> outcome B) : outcome B :=
  match o with
  | Ok a => f a
  | Err e => Err e
  | Panic => Panic
  | OutOfFuel => OutOfFuel
  end.
Notation "x <- o ;; f" := (bind o (fun x => f)) (at level 61, o at next level, right associativity).

(** astTraversal/tags.go:8-28. BindingTagType is a string type; a BindingTagMap is
    iterated over, hence an association list in iteration order. *)
Definition HeaderBindingTag := "header".
(** astTraversal/tags.go:12 *)
Definition FormBindingTag := "form".
(** astTraversal/tags.go:13 *)
Definition URIBindingTag := "uri".
(** astTraversal/tags.go:14 *)
Definition JSONBindingTag := "json".
(** astTraversal/tags.go:15 *)
Definition XMLBindingTag := "xml".
(** astTraversal/tags.go:16 *)
Definition YAMLBindingTag := "yaml".
(** astTraversal/tags.go:17 *)
Definition NoBindingTag := "".

(** astTraversal/tags.go:20 *)
Definition BindingTags : list string :=
  [HeaderBindingTag; FormBindingTag; URIBindingTag; JSONBindingTag; XMLBindingTag; YAMLBindingTag].

(** astTraversal/tags.go:22-26 *)
Record BindingTag := mkBT { bt_name : string; bt_notShown : bool; bt_returnOptional : bool }.

(** BindingTag{} : the zero value, also what Go gives for a missing map key. *)
Definition bt_zero : BindingTag := mkBT "" false false.

(** == on the struct BindingTag. *)
Definition bt_eqb (a b : BindingTag) : bool :=
  String.eqb (bt_name a) (bt_name b) && Bool.eqb (bt_notShown a) (bt_notShown b)
  && Bool.eqb (bt_returnOptional a) (bt_returnOptional b).

Lemma bt_eqb_eq a b : bt_eqb a b = true <-> a = b.
Proof.
  destruct a, b; unfold bt_eqb; simpl.
  rewrite !andb_true_iff, String.eqb_eq, !eqb_true_iff. split.
  - now intros [[-> ->] ->].
  - now injection 1 as -> -> ->.
Qed.

(** astTraversal/tags.go:28 *)
Definition BindingTagMap := list (string * BindingTag).

(** Go's m[k] on a BindingTagMap: the zero tag if absent. *)
Definition bt_get (k : string) (m : BindingTagMap) : BindingTag :=
  match mlookup k m with Some t => t | None => bt_zero end.

(** An element of [EnumValues []any] (astTraversal/type.go:79-117): what ParseBool, ParseInt,
    ParseUint, ParseFloat or a string literal yield.  A float is kept as its source text. *)
Inductive enumval := EStr (s : string) | EInt (z : Z) | EBool (b : bool) | EFloat (text : string).

(** types.go:67-94. StructFields, nil or empty, is []: the code only ranges over it, indexes it
    and marshals it with omitempty, which do not tell nil from empty.  StructFields is iterated
    over, hence an association list in iteration order. The validation tags carry one boolean
    (astTraversal/tags.go:40-44). *)
Inductive Field := mkField {
  f_package : string;
  f_type : string;
  f_name : string;
  f_enum : list enumval;
  f_isRequired : bool;
  f_isEmbedded : bool;
  f_sliceType : string;
  f_arrayType : string;
  f_arrayLength : Z;
  f_mapKeyPackage : string;
  f_mapKeyType : string;
  f_mapValueType : string;
  f_structFields : list (string * Field);
  f_bindingTags : BindingTagMap;
  f_validationTags : list (string * bool);
  f_doc : string }.

(** Field{} with a type. *)
Definition field_of_type (t : string) : Field :=
  mkField "" t "" [] false false "" "" 0 "" "" "" [] [] [] "".

(** Induction on fields, through the struct fields. *)
Fixpoint Field_ind' (P : Field -> Prop)
  (H : forall f, Forall (fun kv => P (snd kv)) (f_structFields f) -> P f) (f : Field) : P f :=
  H f match f with
      | mkField _ _ _ _ _ _ _ _ _ _ _ _ sf _ _ _ =>
          (fix go (l : list (string * Field)) : Forall (fun kv => P (snd kv)) l :=
             match l with
             | [] => Forall_nil _
             | kv :: r => Forall_cons kv (Field_ind' P H (snd kv)) (go r)
             end) sf
      end.

(** types.go:36-44 *)
Record Param := mkParam {
  p_name : string; p_field : Field; p_isRequired : bool;
  p_isArray : bool; p_isMap : bool; p_isBound : bool }.

(** types.go:46-55 *)
Record BodyParam := mkBody {
  b_name : string; b_field : Field; b_contentType : string; b_isRequired : bool;
  b_isArray : bool; b_isMap : bool; b_isBound : bool }.

(** types.go:25-31 *)
Record ReturnType := mkRet { r_status : Z; r_contentType : string; r_field : Field }.

(** types.go:8-23 *)
Record Route := mkRoute {
  rt_handler : string; rt_file : string; rt_line : Z; rt_method : string; rt_path : string;
  rt_pathParams : list Param; rt_queryParams : list Param; rt_body : list BodyParam;
  rt_returns : list ReturnType; rt_doc : string; rt_operationId : string;
  rt_reqHeaders : list Param; rt_respHeaders : list Param }.

(** accepted.go:7-31 *)
Definition AcceptedTypes : list string :=
  ["nil"; "string"; "int"; "int8"; "int16"; "int32"; "int64"; "uint"; "uint8"; "uint16";
   "uint32"; "uint64"; "float"; "float32"; "float64"; "bool"; "byte"; "rune"; "struct"; "map";
   "slice"; "any"; "file"].

(** slices.Contains *)
Definition str_in (x : string) (l : list string) : bool := existsb (String.eqb x) l.

Lemma str_in_spec x l : str_in x l = true <-> In x l.
Proof.
  unfold str_in. rewrite existsb_exists. split.
  - intros (y & Hy & E). apply String.eqb_eq in E; now subst.
  - intros H. exists x. split; auto. apply String.eqb_refl.
Qed.

Lemma str_in_false x l : str_in x l = false <-> ~ In x l.
Proof.
  rewrite <- str_in_spec. destruct (str_in x l); split; try congruence; try tauto.
Qed.

(** accepted.go:33-35 *)
Definition IsAcceptedType (t : string) : bool := str_in t AcceptedTypes.
