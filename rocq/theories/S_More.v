(** Further specifications: options and rules of struct tags, the shape of values in JSON. *)
From Coq Require Import List String Ascii Bool ZArith Arith.
From Verif Require Import BaseStr M_Types M_Tags M_TypeTrav S_TypeTrav M_OpenAPI.
Import ListNotations.
Local Open Scope string_scope.

(** ** Options and rules *)

(** [has_option v x]: [x] is one of the options after the name in the tag value [v]
    (encoding/json: any of the items after the first comma). *)
Definition has_option (v x : string) : Prop :=
  exists a, v = a ++ "," ++ x \/ exists r, v = a ++ "," ++ x ++ "," ++ r.
(** The same, directly after the name. *)
Definition first_option (v x : string) : Prop :=
  exists a, has_char "," a = false /\ (v = a ++ "," ++ x \/ exists r, v = a ++ "," ++ x ++ "," ++ r).
(** [has_rule v x]: [x] is one of the comma-separated validation rules of [v]. *)
Definition has_rule (v x : string) : Prop :=
  exists a b, v = a ++ x ++ b /\ (a = "" \/ exists a', a = a' ++ ",") /\ (b = "" \/ exists b', b = "," ++ b').

(** ** The shape of a value in JSON *)

Inductive shape := JBool | JString | JInteger | JNumber | JArray (e : shape) | JObject (e : shape)
                 | JNamed (pkg name : string).

(** encoding/json: how the built-in types are written. *)
Definition basic_shapes : list (string * shape) :=
  [("bool", JBool); ("string", JString);
   ("int", JInteger); ("int8", JInteger); ("int16", JInteger); ("int32", JInteger); ("int64", JInteger);
   ("uint", JInteger); ("uint8", JInteger); ("uint16", JInteger); ("uint32", JInteger); ("uint64", JInteger);
   ("byte", JInteger); ("rune", JInteger); ("float32", JNumber); ("float64", JNumber)].
Definition is_byte (t : gtype) : Prop := exists b k, t = GBasic b k /\ (b = "byte" \/ b = "uint8").

(** [json_shape env t sh]: encoding/json writes non-nil values of type [t] in shape [sh]; a slice of
    bytes is written as a string.  Types with a name are left as such: their schema is a component. *)
Inductive json_shape (env : TypeEnv) : gtype -> shape -> Prop :=
| js_basic b k sh : In (b, sh) basic_shapes -> json_shape env (GBasic b k) sh
| js_named id p : te_pkg env id = Some p -> json_shape env (GNamed id) (JNamed p (te_name env id))
| js_pointer e sh : json_shape env e sh -> json_shape env (GPointer e) sh
| js_slice e sh : json_shape env e sh -> ~ is_byte e -> json_shape env (GSlice e) (JArray sh)
| js_bytes e : is_byte e -> json_shape env (GSlice e) JString
| js_array n e sh : json_shape env e sh -> json_shape env (GArray n e) (JArray sh)
| js_map k e sh : json_shape env e sh -> json_shape env (GMap k e) (JObject sh).

(** [describes name s sh]: the schema [s] says that values have shape [sh]; [name p n] is the name
    under which the components of the document have type [n] of package [p]. *)
Inductive describes (name : string -> string -> option string) : Schema -> shape -> Prop :=
| ds_bool s : s_ref s = "" -> s_type s = "boolean" -> describes name s JBool
| ds_string s : s_ref s = "" -> s_type s = "string" -> describes name s JString
| ds_integer s : s_ref s = "" -> s_type s = "integer" -> describes name s JInteger
| ds_number s : s_ref s = "" -> s_type s = "number" -> describes name s JNumber
| ds_array s i e : s_ref s = "" -> s_type s = "array" -> s_items s = Some i -> describes name i e ->
    describes name s (JArray e)
| ds_object s a e : s_ref s = "" -> s_type s = "object" -> s_addl s = Some a -> describes name a e ->
    describes name s (JObject e)
| ds_named s p n c : name p n = Some c -> s_ref s = "#/components/schemas/" ++ c ->
    describes name s (JNamed p n).

(** A type that is, behind pointers, built in (not a byte or rune) or named by a package under a name
    that astra does not use itself, and whose component has a name. *)
Inductive plain_type (env : TypeEnv) (name : string -> string -> option string) : gtype -> Prop :=
| pl_basic b k : In b (map fst basic_shapes) -> b <> "byte" -> b <> "rune" -> plain_type env name (GBasic b k)
| pl_named id p : te_pkg env id = Some p -> ~ In (te_name env id) AcceptedTypes ->
    te_name env id <> "array" -> has_char "." (te_name env id) = false -> name p (te_name env id) <> None -> plain_type env name (GNamed id)
| pl_pointer e : plain_type env name e -> plain_type env name (GPointer e).
(** Slices of these other than slices of bytes, and maps; arrays as well if [arrays]. *)
Inductive flat_type (env : TypeEnv) (name : string -> string -> option string) (arrays : bool) : gtype -> Prop :=
| fl_plain t : plain_type env name t -> flat_type env name arrays t
| fl_slice t : plain_type env name t -> ~ is_byte t -> flat_type env name arrays (GSlice t)
| fl_array n t : arrays = true -> plain_type env name t -> flat_type env name arrays (GArray n t)
| fl_map k kn kp t : elem_of env k kn kp -> plain_type env name t -> flat_type env name arrays (GMap k t).

(** ** Properties of a schema *)

(** Its own and those of the inline parts of an allOf. *)
Definition all_props (s : Schema) : list (string * Schema) :=
  (s_props s ++ flat_map s_props (s_allOf s))%list.

(** The binding of a source field under a tag: the one its tag gives, else the untagged one. *)
Definition source_binds (t : string) (f : gfield gtype) (b : BindingTag) : Prop :=
  let m := fst (ParseStructTag (gf_name f) (gf_tag f)) in
  In (t, b) m \/ (~ In t (map fst m) /\ In (NoBindingTag, b) m).
(** A field of a struct that appears in JSON objects etc. under its own name. *)
Definition own_property (t : string) (f : gfield gtype) (b : BindingTag) : Prop :=
  gf_exported f = true /\ gf_embedded f = false /\ source_binds t f b /\ bt_notShown b = false.
