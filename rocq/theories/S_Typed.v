(** What a schema should say about the values of a Go type, through all references. *)
From Coq Require Import List String Ascii Bool ZArith Arith.
From Verif Require Import BaseStr BaseMap M_Types M_Tags S_Tags M_TypeTrav S_TypeTrav M_OpenAPI S_Names S_OpenAPI S_More.
Import ListNotations.
Local Open Scope string_scope.

(** The built-in types and what their values are in JSON (byte and rune go by their other names). *)
Definition basic_types : list (string * string) :=
  [("bool", "boolean"); ("string", "string");
   ("int", "integer"); ("int8", "integer"); ("int16", "integer"); ("int32", "integer"); ("int64", "integer");
   ("uint", "integer"); ("uint8", "integer"); ("uint16", "integer"); ("uint32", "integer"); ("uint64", "integer");
   ("float32", "number"); ("float64", "number")].

(** The package documents speak of: the main package goes by the name main. *)
Definition spoken (main p : string) : string := if String.eqb p main then "main" else p.

Section Typed.
  Context (env : TypeEnv) (custom : list (string * TypeFormat)) (main t : string).

  (** ** Schemas *)

  (** The field is a member of the objects its struct is written as, under this name. *)
  Definition member (f : gfield gtype) (name : string) : Prop :=
    gf_exported f = true /\ gf_embedded f = false /\
    exists v, tag_has (gf_tag f) t v /\ encoder_name t (gf_name f) v = Some name.

  (** [shows named T s]: [s] describes the values of type [T]; [named id s'] is what the schemas of the named
      types inside have to be.  The members of an embedded struct are those of another part. *)
  Section Shows.
    Context (named : nat -> Schema -> Prop).
    Inductive shows : gtype -> Schema -> Prop :=
    | sh_basic b k s ty : In (b, ty) basic_types -> s_ref s = "" -> s_type s = ty -> shows (GBasic b k) s
    | sh_any s : s_ref s = "" -> s_type s = "" -> shows GInterface s
    | sh_pointer e s : shows e s -> shows (GPointer e) s
    | sh_slice e s i : s_ref s = "" -> s_type s = "array" -> s_items s = Some i -> shows e i -> shows (GSlice e) s
    | sh_array n e s i : s_ref s = "" -> s_type s = "array" -> s_items s = Some i -> shows e i -> shows (GArray n e) s
    | sh_map k e s a : s_ref s = "" -> s_type s = "object" -> s_addl s = Some a -> shows e a -> shows (GMap k e) s
    | sh_struct fs s : s_ref s = "" -> s_type s = "object" ->
        (forall n, In n (property_names s) <-> exists f, In f fs /\ member f n) ->
        (forall f n, In f fs -> member f n -> exists p, In (n, p) (all_props s) /\ shows (gf_type f) p) ->
        (forall f, In f fs -> gf_exported f = true -> gf_embedded f = true -> exists e, In e (s_allOf s) /\ shows (gf_type f) e) ->
        shows (GStruct fs) s
    | sh_named id s : named id s -> shows (GNamed id) s.
  End Shows.

  (** [refers d n id s]: [s] is a reference to a schema of the document that describes the definition of the
      type, or is what the type is mapped to, and so are, [n] levels deep, the schemas of the types inside. *)
  Fixpoint refers (d : Document) (n : nat) (id : nat) (s : Schema) : Prop :=
    match n with
    | O => True
    | S n =>
        exists p name sch, te_pkg env id = Some p /\
          s_ref s = "#/components/schemas/" ++ name /\ mlookup name (d_schemas d) = Some sch /\
          match typeMapping custom (te_name env id) (spoken main p) with
          | Some tf => s_type sch = tf_type tf /\ (tf_type tf <> "" -> s_format sch = tf_format tf)
          | None => shows (refers d n) (te_under env id) sch
          end
    end.
  Definition portrays (d : Document) (T : gtype) (s : Schema) : Prop := forall n, shows (refers d n) T s.

  (** ** Conditions *)

  (** Behind pointers a built-in type, any or a named type. *)
  Inductive element : gtype -> Prop :=
  | el_basic b k ty : In (b, ty) basic_types -> element (GBasic b k)
  | el_any : element GInterface
  | el_named id : element (GNamed id)
  | el_pointer e : element e -> element (GPointer e).
  (** The same without named types. *)
  Inductive builtin_element : gtype -> Prop :=
  | be_basic b k ty : In (b, ty) basic_types -> builtin_element (GBasic b k)
  | be_any : builtin_element GInterface
  | be_pointer e : builtin_element e -> builtin_element (GPointer e).
  (** Elements, and slices (not of bytes, which are written as a string), arrays and maps of these. *)
  Inductive flat : gtype -> Prop :=
  | fl_element e : element e -> flat e
  | fl_slice e : element e -> ~ is_byte e -> flat (GSlice e)
  | fl_array n e : element e -> flat (GArray n e)
  | fl_map k e : element k -> element e -> flat (GMap k e).
  Inductive embeddable : gtype -> Prop :=
  | em_named id : embeddable (GNamed id)
  | em_pointer e : embeddable e -> embeddable (GPointer e).

  (** One field: embedded without a tag, or with this tag only, which neither is like -, (dash, comma) nor
      leaves the name to the YAML encoder. *)
  Definition plain_field (f : gfield gtype) : Prop :=
    gf_name f <> "" /\
    if gf_embedded f then
      embeddable (gf_type f) /\ forall k v, In k BindingTags -> ~ tag_has (gf_tag f) k v
    else
      flat (gf_type f) /\ (forall k v, In k BindingTags -> tag_has (gf_tag f) k v -> k = t) /\
      exists v, tag_has (gf_tag f) t v /\ (before_comma v = "-" -> v = "-") /\ (t = YAMLBindingTag -> before_comma v <> "").
  (** A struct of such fields, with a field of its own if it has any, and no two of one name. *)
  Definition plain_struct (fs : list (gfield gtype)) : Prop :=
    (forall f, In f fs -> gf_exported f = true -> plain_field f) /\
    ((forall f, In f fs -> gf_exported f = false) \/ exists f, In f fs /\ gf_exported f = true /\ gf_embedded f = false) /\
    (forall f f' n, In f fs -> In f' fs -> member f n -> member f' n -> f = f').

  (** A type defined as such a struct, as a built-in type or interface, or as a list or map of these. *)
  Definition plain_definition (T : gtype) : Prop :=
    match T with
    | GStruct fs => plain_struct fs
    | GBasic b _ => exists ty, In (b, ty) basic_types
    | GInterface => True
    | GSlice e => builtin_element e /\ ~ is_byte e
    | GArray _ e => builtin_element e
    | GMap k e => element k /\ builtin_element e
    | _ => False
    end.
  (** A type with a mapping of its own: nothing is shown of its definition. *)
  Definition opaque (T : gtype) : Prop :=
    (forall e, T <> GPointer e) /\ forall fs f, T = GStruct fs -> In f fs -> gf_exported f = false.

  Definition plain_named (id : nat) : Prop :=
    exists p, te_pkg env id = Some p /\ te_name env id <> "array" /\
      ((typeMapping custom (te_name env id) (spoken main p) <> None /\ opaque (te_under env id)) \/
       (typeMapping custom (te_name env id) (spoken main p) = None /\ plain_definition (te_under env id) /\
        (p ++ "." ++ te_name env id = "time.Duration" -> exists b k, te_under env id = GBasic b k /\ In (b, "integer") basic_types))).

  (** The values of [T] can be described: those of a plain type, list or map. *)
  Inductive value_type : gtype -> Prop :=
  | vt_element e : element e -> value_type e
  | vt_slice e : element e -> ~ is_byte e -> value_type (GSlice e)
  | vt_map k e : element k -> element e -> value_type (GMap k e).
  (** Any, behind pointers: nothing can be said of the values. *)
  Inductive anything : gtype -> Prop :=
  | an_any : anything GInterface
  | an_pointer e : anything e -> anything (GPointer e).
  Definition transparent (T : gtype) : Prop :=
    value_type T /\ forall id, reach env true T (GNamed id) -> plain_named id.

  (** ** The types of the program *)

  (** The analysis of the definition of the type succeeds. *)
  Definition analysed (id : nat) : Prop :=
    exists p n l u, te_pkg env id = Some p /\ TypeResult n env true (Some p) (te_name env id) (te_under env id) = (l, Ok u).

  Context (used : nat -> Prop).
  (** The types used can be told apart by package and name, the names are not those of built-in types, the
      fields of structs have names; the definition of each is recorded under its own package. *)
  Definition distinct_types : Prop :=
    (forall id p, used id -> analysed id -> te_pkg env id = Some p -> p <> "" /\ te_name env id <> "" /\
       ~ In (te_name env id) AcceptedTypes /\ at_home env id /\
       (forall fs f, te_under env id = GStruct fs -> In f fs -> gf_name f <> "")) /\
    (forall i j p q, used i -> used j -> analysed i -> analysed j -> te_pkg env i = Some p -> te_pkg env j = Some q ->
       spoken main p = spoken main q -> te_name env i = te_name env j -> i = j).
  (** Their names and packages as schema names need them: C23. *)
  Definition nameable (level : string -> nat) : Prop :=
    (forall i j p q, used i -> used j -> analysed i -> analysed j -> te_pkg env i = Some p -> te_pkg env j = Some q ->
       last_elem (spoken main p) = last_elem (spoken main q) -> spoken main p <> spoken main q ->
       first_differ_at (level (last_elem (spoken main p))) (spoken main p) (spoken main q)) /\
    (forall i p, used i -> analysed i -> te_pkg env i = Some p ->
       has_char "." (te_name env i) = false /\
       Forall (fun e => has_char "." e = false /\ e <> "" /\ ~ In e BindingTags)
              (firstn (S (level (last_elem (spoken main p)))) (elems (spoken main p)))).
  (** No mapping is for a type without a name. *)
  Definition named_mappings : Prop := forall p, typeMapping custom "" p = None.
End Typed.
