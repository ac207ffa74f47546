(** The text of the JSON output: the struct tags of types.go and astTraversal/tags.go, outputs/json/generate.go. *)
From Coq Require Import List String Ascii Bool ZArith Arith.
From Verif Require Import BaseStr BaseMap M_Types M_OpenAPI M_Service M_Json.
Import ListNotations.
Local Open Scope string_scope.

(** encode.go (mapEncoder): the entries of a map are written in the order of their keys. *)
Fixpoint insert_key {A} (x : string * A) (l : list (string * A)) : list (string * A) :=
  match l with
  | [] => [x]
  | y :: r => if str_ltb (fst y) (fst x) then y :: insert_key x r else x :: l
  end.
(** All entries, by their keys. *)
Definition sort_keys {A} (l : list (string * A)) : list (string * A) := fold_right insert_key [] l.

(** astTraversal/tags.go:22-26 and 41-43 *)
Definition tag_json (t : BindingTag) : jval :=
  JObj (text_member "name" (bt_name t) ++ flag_member "not_shown" (bt_notShown t) ++ flag_member "return_optional" (bt_returnOptional t))%list.
(** The JSON of a ValidationTag (astTraversal/tags.go:41-43). *)
Definition validation_json (required : bool) : jval := JObj (flag_member "is_required" required).

Section Marshal.
  (** How encoding/json writes the float64 of a literal (floatEncoder); given. *)
  Context (float : string -> string).

  (** types.go:67-94 *)
  Fixpoint field_json (f : Field) : jval :=
    match f with
    | mkField pkg typ name enum req emb sliceT arrayT arrayL mkp mkt mv sf bt vt doc =>
        JObj (text_member "package" pkg ++ text_member "type" typ ++ text_member "name" name
              ++ list_member "enumValues" (map (enum_json float) enum) ++ flag_member "isRequired" req ++ flag_member "isEmbedded" emb
              ++ text_member "sliceType" sliceT ++ text_member "arrayType" arrayT ++ int_member "arrayLength" arrayL
              ++ text_member "mapKeyPackage" mkp ++ text_member "mapKeyType" mkt ++ text_member "mapValueType" mv
              ++ map_member "structFields" (sort_keys (map (fun kf => (fst kf, field_json (snd kf))) sf))
              ++ map_member "structFieldBindingTags" (sort_keys (map (fun kt => (fst kt, tag_json (snd kt))) bt))
              ++ map_member "structFieldValidationTags" (sort_keys (map (fun kv => (fst kv, validation_json (snd kv))) vt))
              ++ text_member "doc" doc)%list
    end.
  (** types.go:36-44; a struct is never empty, so omitempty does nothing for Field *)
  Definition param_json (p : Param) : jval :=
    JObj (text_member "name" (p_name p) ++ ("type", field_json (p_field p)) :: flag_member "isRequired" (p_isRequired p)
          ++ flag_member "isArray" (p_isArray p) ++ flag_member "isMap" (p_isMap p) ++ flag_member "isBound" (p_isBound p))%list.
  (** types.go:46-55 *)
  Definition bodyParam_json (b : BodyParam) : jval :=
    JObj (text_member "name" (b_name b) ++ ("type", field_json (b_field b)) :: text_member "contentType" (b_contentType b)
          ++ flag_member "isRequired" (b_isRequired b) ++ flag_member "isArray" (b_isArray b) ++ flag_member "isMap" (b_isMap b)
          ++ flag_member "isBound" (b_isBound b))%list.
  (** types.go:25-31 *)
  Definition returnType_json (r : ReturnType) : jval :=
    JObj (int_member "statusCode" (r_status r) ++ text_member "contentType" (r_contentType r) ++ [("field", field_json (r_field r))])%list.
  (** types.go:8-23 *)
  Definition route_json (r : Route) : jval :=
    JObj (("handler", JStr (rt_handler r)) :: ("file", JStr (rt_file r)) :: ("lineNo", JNum (itoa (rt_line r)))
          :: ("method", JStr (rt_method r)) :: ("path", JStr (rt_path r))
          :: list_member "params" (map param_json (rt_pathParams r)) ++ list_member "queryParams" (map param_json (rt_queryParams r))
          ++ list_member "body" (map bodyParam_json (rt_body r)) ++ list_member "returnTypes" (map returnType_json (rt_returns r))
          ++ text_member "doc" (rt_doc r) ++ text_member "operationId" (rt_operationId r)
          ++ list_member "requestHeaders" (map param_json (rt_reqHeaders r)) ++ list_member "responseHeaders" (map param_json (rt_respHeaders r)))%list.
  (** A slice without omitempty: null if it is nil, which only an empty one can be. *)
  Definition slice_json (is_nil : bool) (l : list jval) : jval := match l with [] => if is_nil then JNull else JArr [] | _ => JArr l end.
  (** outputs/json/generate.go:14-27; [nr] and [nc] tell whether empty slices of the service are nil. *)
  Definition output_json (nr nc : bool) (routes : list Route) (components : list Field) : jval :=
    JObj [("routes", slice_json nr (map route_json routes)); ("components", slice_json nc (map field_json components))].
End Marshal.

(** outputs/json/generate.go:30: json.MarshalIndent with two spaces. *)
Definition output_text (short : bool) (float : string -> string) (nr nc : bool) (routes : list Route) (components : list Field) : string :=
  value_text short 0 (output_json float nr nc routes components).
