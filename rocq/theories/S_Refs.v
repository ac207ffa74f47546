(** What the schemas behind a reference say, at every depth. *)
From Coq Require Import List String Ascii Bool ZArith.
From Verif Require Import BaseStr BaseMap M_Types M_Tags S_Tags M_OpenAPI S_Names S_OpenAPI S_More.
Import ListNotations.
Local Open Scope string_scope.

(** A component that a reference under tag [t] can find: some field has the tag or none. *)
Definition has_name (c : Field) (t : string) : Prop := registered c t \/ registered c NoBindingTag.
(** One schema stands for the component under both tags. *)
Definition shares (c : Field) (t t' : string) : Prop :=
  t = t' \/ (~ registered c t /\ ~ registered c t') \/ ~ bindings_differ (f_structFields c).

Definition compound (typ : string) : Prop := In typ ["struct"; "slice"; "array"; "map"].
Definition named_type (typ : string) : Prop := ~ In typ AcceptedTypes /\ ~ compound typ.

(** The named types that the type of [f] consists of, through the structs without a name inside it. *)
Inductive names_type : Field -> string -> string -> Prop :=
| nt_name f : named_type (f_type f) -> names_type f (f_package f) (f_type f)
| nt_slice f : f_type f = "slice" -> names_type f (f_package f) (f_sliceType f)
| nt_array f : f_type f = "array" -> names_type f (f_package f) (f_arrayType f)
| nt_map f : f_type f = "map" -> names_type f (f_package f) (f_mapValueType f)
| nt_embedded f k g : f_type f = "struct" -> In (k, g) (f_structFields f) -> f_isEmbedded g = true ->
    names_type f (f_package g) (f_type g)
| nt_field f k g p n : f_type f = "struct" -> In (k, g) (f_structFields f) -> f_isEmbedded g = false ->
    names_type g p n -> names_type f p n.

(** The type of a value: a named type, or a slice or map of one. *)
Definition value_names (f : Field) (p n : string) : Prop :=
  p = f_package f /\ ((~ In (f_type f) AcceptedTypes /\ n = f_type f) \/ (f_type f = "slice" /\ n = f_sliceType f) \/
                      (f_type f = "map" /\ n = f_mapValueType f)).

Section Behind.
  Context (custom : list (string * TypeFormat)) (components : list Field) (d : Document) (t : string).

  (** The schema of a built-in type is of that type, and not a reference. *)
  Definition of_builtin (typ : string) (s : Schema) : Prop :=
    s_ref s = "" /\ forall tf, mlookup typ PredefinedTypeMap = Some tf -> s_type s = tf_type tf.

  (** [fits named f s]: [s] describes the type of [f] under the tag.  A struct has one property for
      each field shown under the tag, by its name under the tag, and a part for each embedded
      struct; [named p n s'] is what the schemas of named types inside have to be. *)
  Section Fits.
    Context (named : string -> string -> Schema -> Prop).
    Definition element (p e : string) (s : Schema) : Prop :=
      (In e AcceptedTypes -> of_builtin e s) /\ (~ In e AcceptedTypes -> named p e s).
    Inductive fits : Field -> Schema -> Prop :=
    | fits_struct f s : f_type f = "struct" -> s_ref s = "" -> s_type s = "object" ->
        (forall n, In n (property_names s) <-> shown t (f_structFields f) n) ->
        (forall k g b, In (k, g) (f_structFields f) -> f_isEmbedded g = false -> binds t g b -> bt_notShown b = false ->
           exists p, In (bt_name b, p) (all_props s) /\ fits g p) ->
        (forall k g, In (k, g) (f_structFields f) -> f_isEmbedded g = true ->
           (exists c, In c components /\ f_package c = f_package g /\ f_name c = f_type g) ->
           exists e, In e (s_allOf s) /\ named (f_package g) (f_type g) e) ->
        fits f s
    | fits_slice f s i : f_type f = "slice" -> s_ref s = "" -> s_type s = "array" -> s_items s = Some i ->
        element (f_package f) (f_sliceType f) i -> fits f s
    | fits_array f s i : f_type f = "array" -> s_ref s = "" -> s_type s = "array" -> s_items s = Some i ->
        element (f_package f) (f_arrayType f) i -> fits f s
    | fits_map f s a : f_type f = "map" -> s_ref s = "" -> s_type s = "object" -> s_addl s = Some a ->
        element (f_package f) (f_mapValueType f) a -> fits f s
    | fits_builtin f s : In (f_type f) AcceptedTypes -> ~ compound (f_type f) -> of_builtin (f_type f) s -> fits f s
    | fits_named f s : named_type (f_type f) -> named (f_package f) (f_type f) s -> fits f s.
  End Fits.

  (** [unfolds n pkg typ s]: if the named type is a component, [s] is a reference to a schema of
      the document that describes the component under the tag, and so are, [n] levels deep, the
      schemas of the named types inside. *)
  Fixpoint unfolds (n : nat) (pkg typ : string) (s : Schema) : Prop :=
    match n with
    | O => True
    | S n =>
        forall c, In c components -> f_package c = pkg -> f_name c = typ ->
        exists name sch, s_ref s = "#/components/schemas/" ++ name /\ mlookup name (d_schemas d) = Some sch /\
          match typeMapping custom typ pkg with
          | Some tf => s_type sch = tf_type tf /\ (tf_type tf <> "" -> s_format sch = tf_format tf)
          | None => fits (unfolds n) c sch
          end
    end.

  (** What the schema of a value of the type of [f] says, [n] levels deep. *)
  Definition value_unfolds (n : nat) (f : Field) (s : Schema) : Prop :=
    (~ In (f_type f) AcceptedTypes -> unfolds n (f_package f) (f_type f) s) /\
    (f_type f = "slice" -> s_ref s = "" /\ s_type s = "array" /\ exists i, s_items s = Some i /\ element (unfolds n) (f_package f) (f_sliceType f) i) /\
    (f_type f = "map" -> s_ref s = "" /\ s_type s = "object" /\ exists a, s_addl s = Some a /\ element (unfolds n) (f_package f) (f_mapValueType f) a).

  (** ** Conditions *)

  (** No two fields are shown under one name, no custom mapping is about a field that has no name of
      its own, and structs without a name have a binding for each field. *)
  Inductive orderly : Field -> Prop :=
  | orderly_intro f :
      map_bindings (f_structFields f) -> (forall k g, In (k, g) (f_structFields f) -> map_bindings (f_structFields g)) ->
      (forall k g b k' g' b', In (k, g) (f_structFields f) -> In (k', g') (f_structFields f) ->
         f_isEmbedded g = false -> f_isEmbedded g' = false -> binds t g b -> binds t g' b' ->
         bt_notShown b = false -> bt_notShown b' = false -> bt_name b = bt_name b' -> k = k' /\ g = g') ->
      (forall k g, In (k, g) (f_structFields f) -> f_isEmbedded g = false ->
         typeMapping custom (f_name g) (f_package g) = None /\
         (f_type g = "struct" -> all_bound t (f_structFields g)) /\ orderly g) ->
      orderly f.

  (** The type of [f] is the same under [t] and [t']: its fields, also of structs without a name
      inside, have the same bindings, and one schema stands for each named type inside. *)
  Inductive alike (t' : string) : Field -> Prop :=
  | alike_intro f :
      (forall k g, In (k, g) (f_structFields f) -> f_isEmbedded g = false ->
         (forall b, binds t g b <-> binds t' g b) /\ alike t' g) ->
      (forall p n c, names_type f p n -> In c components -> f_package c = p -> f_name c = n -> has_name c t' /\ shares c t t') ->
      alike t' f.

  (** The components behind a reference to [c]. *)
  Inductive behind : Field -> Field -> Prop :=
  | behind_self c : behind c c
  | behind_step c1 c2 c3 : behind c1 c2 -> typeMapping custom (f_name c2) (f_package c2) = None ->
      names_type c2 (f_package c3) (f_name c3) -> In c3 components -> behind c1 c3.

  (** A component whose schema is that of the tag, as far as its own fields go. *)
  Definition faithful (c : Field) : Prop :=
    has_name c t /\ describable custom t c /\ ~ In (f_name c) AcceptedTypes /\
    (typeMapping custom (f_name c) (f_package c) = None ->
     orderly c /\ forall t', In t' BindingTags -> describable custom t' c -> has_name c t' -> shares c t t' -> alike t' c).
End Behind.

(** The plainest programs: one tag on all fields, embedded structs untagged, and each struct empty or
    with a field of its own. *)
Definition one_tag (custom : list (string * TypeFormat)) (t : string) (c : Field) : Prop :=
  f_type c = "struct" /\ ~ In (f_name c) AcceptedTypes /\
  (f_structFields c = [] \/ exists k g, In (k, g) (f_structFields c) /\ f_isEmbedded g = false) /\
  (forall k g, In (k, g) (f_structFields c) ->
     f_structFields g = [] /\ f_type g <> "struct" /\ typeMapping custom (f_name g) (f_package g) = None /\
     exists b, b <> bt_zero /\ f_bindingTags g = [(if f_isEmbedded g then NoBindingTag else t, b)]) /\
  (forall k g b k' g' b', In (k, g) (f_structFields c) -> In (k', g') (f_structFields c) ->
     f_isEmbedded g = false -> f_isEmbedded g' = false -> In (t, b) (f_bindingTags g) -> In (t, b') (f_bindingTags g') ->
     bt_name b = bt_name b' -> k = k' /\ g = g').
