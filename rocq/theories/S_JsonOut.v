(** What a JSON value says as the JSON output of astra, by the names of the members. *)
From Coq Require Import List String Ascii Bool ZArith Arith Sorted Permutation.
From Verif Require Import BaseStr BaseMap M_Types M_OpenAPI M_Json S_Cache S_Json.
Import ListNotations.
Local Open Scope string_scope.

(** A map: the entries of an object, in any order; an absent member is the empty map. *)
Definition says_entries {A} (R : jval -> A -> Prop) (o : obj) (k : string) (l : list (string * A)) : Prop :=
  (exists vs l', has o k (JObj vs) /\ Permutation l l' /\ Forall2 (keyed R) vs l') \/ (absent o k /\ l = []).
(** A list that is always there, null if it is empty. *)
Definition says_slice {A} (R : jval -> A -> Prop) (o : obj) (k : string) (l : list A) : Prop :=
  (exists vs, has o k (JArr vs) /\ Forall2 R vs l) \/ (has o k JNull /\ l = []).

Definition tag_value (v : jval) (t : BindingTag) : Prop := exists o, v = JObj o /\
  says_text o "name" (bt_name t) /\ says_flag o "not_shown" (bt_notShown t) /\ says_flag o "return_optional" (bt_returnOptional t).
Definition validation_value (v : jval) (b : bool) : Prop := exists o, v = JObj o /\ says_flag o "is_required" b.

Section Reader.
  (** What a value of an enumeration says. *)
  Context (E : jval -> enumval -> Prop).
  Inductive field_value : jval -> Field -> Prop :=
  | fv o f :
      says_text o "package" (f_package f) -> says_text o "type" (f_type f) -> says_text o "name" (f_name f) ->
      says_list E o "enumValues" (f_enum f) ->
      says_flag o "isRequired" (f_isRequired f) -> says_flag o "isEmbedded" (f_isEmbedded f) ->
      says_text o "sliceType" (f_sliceType f) -> says_text o "arrayType" (f_arrayType f) -> says_int o "arrayLength" (f_arrayLength f) ->
      says_text o "mapKeyPackage" (f_mapKeyPackage f) -> says_text o "mapKeyType" (f_mapKeyType f) -> says_text o "mapValueType" (f_mapValueType f) ->
      says_entries field_value o "structFields" (f_structFields f) ->
      says_entries tag_value o "structFieldBindingTags" (f_bindingTags f) ->
      says_entries validation_value o "structFieldValidationTags" (f_validationTags f) ->
      says_text o "doc" (f_doc f) -> field_value (JObj o) f.
  Definition param_value (v : jval) (p : Param) : Prop := exists o t, v = JObj o /\
    says_text o "name" (p_name p) /\ has o "type" t /\ field_value t (p_field p) /\ says_flag o "isRequired" (p_isRequired p) /\
    says_flag o "isArray" (p_isArray p) /\ says_flag o "isMap" (p_isMap p) /\ says_flag o "isBound" (p_isBound p).
  Definition bodyParam_value (v : jval) (b : BodyParam) : Prop := exists o t, v = JObj o /\
    says_text o "name" (b_name b) /\ has o "type" t /\ field_value t (b_field b) /\ says_text o "contentType" (b_contentType b) /\
    says_flag o "isRequired" (b_isRequired b) /\ says_flag o "isArray" (b_isArray b) /\ says_flag o "isMap" (b_isMap b) /\ says_flag o "isBound" (b_isBound b).
  Definition returnType_value (v : jval) (r : ReturnType) : Prop := exists o t, v = JObj o /\
    says_int o "statusCode" (r_status r) /\ says_text o "contentType" (r_contentType r) /\ has o "field" t /\ field_value t (r_field r).
  Definition route_value (v : jval) (r : Route) : Prop := exists o t, v = JObj o /\
    has o "handler" (JStr (rt_handler r)) /\ has o "file" (JStr (rt_file r)) /\ has o "lineNo" (JNum t) /\ integer t (rt_line r) /\
    has o "method" (JStr (rt_method r)) /\ has o "path" (JStr (rt_path r)) /\
    says_list param_value o "params" (rt_pathParams r) /\ says_list param_value o "queryParams" (rt_queryParams r) /\
    says_list bodyParam_value o "body" (rt_body r) /\ says_list returnType_value o "returnTypes" (rt_returns r) /\
    says_text o "doc" (rt_doc r) /\ says_text o "operationId" (rt_operationId r) /\
    says_list param_value o "requestHeaders" (rt_reqHeaders r) /\ says_list param_value o "responseHeaders" (rt_respHeaders r).
  Definition output_value (v : jval) (routes : list Route) (components : list Field) : Prop := exists o, v = JObj o /\
    says_slice route_value o "routes" routes /\ says_slice field_value o "components" components.
End Reader.

(** ** The fields of an output *)
Definition route_fields (r : Route) : list Field :=
  (map p_field (rt_pathParams r) ++ map p_field (rt_queryParams r) ++ map b_field (rt_body r) ++ map r_field (rt_returns r)
   ++ map p_field (rt_reqHeaders r) ++ map p_field (rt_respHeaders r))%list.
(** A field and the fields in it. *)
Fixpoint subfields (f : Field) : list Field :=
  f :: match f with mkField _ _ _ _ _ _ _ _ _ _ _ _ sf _ _ _ => flat_map (fun kf => subfields (snd kf)) sf end.
Definition output_fields (routes : list Route) (components : list Field) : list Field :=
  flat_map subfields (flat_map route_fields routes ++ components)%list.

(** The maps have each key once, as maps do. *)
Definition maps_once (f : Field) : Prop :=
  NoDup (map fst (f_structFields f)) /\ NoDup (map fst (f_bindingTags f)) /\ NoDup (map fst (f_validationTags f)).
(** No value of an enumeration is from a floating point literal. *)
Definition no_floats (f : Field) : Prop := forall t, ~ In (EFloat t) (f_enum f).
(** The texts of a field without those in it. *)
Definition own_texts (f : Field) : list string :=
  ([f_package f; f_type f; f_name f; f_sliceType f; f_arrayType f; f_mapKeyPackage f; f_mapKeyType f; f_mapValueType f; f_doc f]
   ++ flat_map enum_texts (f_enum f) ++ map fst (f_structFields f) ++ map fst (f_bindingTags f) ++ map (fun kt => bt_name (snd kt)) (f_bindingTags f)
   ++ map fst (f_validationTags f))%list.
Definition route_texts (r : Route) : list string :=
  ([rt_handler r; rt_file r; rt_method r; rt_path r; rt_doc r; rt_operationId r]
   ++ map p_name (rt_pathParams r ++ rt_queryParams r ++ rt_reqHeaders r ++ rt_respHeaders r)
   ++ map b_name (rt_body r) ++ map b_contentType (rt_body r) ++ map r_contentType (rt_returns r))%list.
Definition output_texts (routes : list Route) (components : list Field) : list string :=
  (flat_map route_texts routes ++ flat_map own_texts (output_fields routes components))%list.

(** ** The same results with maps listed in another order *)
Inductive same_field : Field -> Field -> Prop :=
| same_field_intro pkg typ name enum req emb sliceT arrayT arrayL mkp mkt mv sf sf' sf2 bt bt' vt vt' doc :
    Forall2 (fun kf kf' => fst kf = fst kf' /\ same_field (snd kf) (snd kf')) sf sf2 -> Permutation sf2 sf' ->
    Permutation bt bt' -> Permutation vt vt' ->
    same_field (mkField pkg typ name enum req emb sliceT arrayT arrayL mkp mkt mv sf bt vt doc)
               (mkField pkg typ name enum req emb sliceT arrayT arrayL mkp mkt mv sf' bt' vt' doc).
Definition same_param (p p' : Param) : Prop := same_field (p_field p) (p_field p') /\
  (p_name p, p_isRequired p, p_isArray p, p_isMap p, p_isBound p) = (p_name p', p_isRequired p', p_isArray p', p_isMap p', p_isBound p').
Definition same_body (b b' : BodyParam) : Prop := same_field (b_field b) (b_field b') /\
  (b_name b, b_contentType b, b_isRequired b, b_isArray b, b_isMap b, b_isBound b) = (b_name b', b_contentType b', b_isRequired b', b_isArray b', b_isMap b', b_isBound b').
Definition same_return (r r' : ReturnType) : Prop := same_field (r_field r) (r_field r') /\ (r_status r, r_contentType r) = (r_status r', r_contentType r').
Definition same_route (r r' : Route) : Prop :=
  (rt_handler r, rt_file r, rt_line r, rt_method r, rt_path r, rt_doc r, rt_operationId r)
    = (rt_handler r', rt_file r', rt_line r', rt_method r', rt_path r', rt_doc r', rt_operationId r') /\
  Forall2 same_param (rt_pathParams r) (rt_pathParams r') /\ Forall2 same_param (rt_queryParams r) (rt_queryParams r') /\
  Forall2 same_body (rt_body r) (rt_body r') /\ Forall2 same_return (rt_returns r) (rt_returns r') /\
  Forall2 same_param (rt_reqHeaders r) (rt_reqHeaders r') /\ Forall2 same_param (rt_respHeaders r) (rt_respHeaders r').
