(** Valid OpenAPI 3.0 documents, as JSON values: the rules of the OpenAPI specification 3.0 (section 4.7) for the
    objects astra writes.  Not among them: the formats of URLs and e-mail addresses. *)
From Coq Require Import List String Ascii Bool ZArith Arith.
From Verif Require Import BaseStr BaseMap M_Types M_Paths M_OpenAPI M_Json S_Json S_Paths S_OpenAPI.
Import ListNotations.
Local Open Scope string_scope.

(** No members but those of the specification. *)
Definition only (o : obj) (keys : list string) : Prop := forall k, In k (map fst o) -> In k keys.
(** Optional members. *)
Definition maybe (o : obj) (k : string) (P : jval -> Prop) : Prop := forall v, has o k v -> P v.
Definition text (v : jval) : Prop := exists s, v = JStr s.
Definition flag (v : jval) : Prop := exists b, v = JBool b.
(** Maps and lists of objects. *)
Definition map_of (P : jval -> Prop) (v : jval) : Prop := exists l, v = JObj l /\ forall k x, In (k, x) l -> P x.
Definition some_of (P : jval -> Prop) (v : jval) : Prop := exists l, v = JArr l /\ l <> [] /\ forall x, In x l -> P x.

(** 4.7.24 Schema Object and 4.7.23 Reference Object; [names] are the schemas that can be referred to. *)
Definition schema_types : list string := [""; "string"; "number"; "integer"; "boolean"; "array"; "object"].
Definition schema_keys : list string :=
  ["$ref"; "maxLength"; "enum"; "type"; "format"; "allOf"; "items"; "properties"; "additionalProperties"; "description"].
Inductive valid_schema (names : list string) : jval -> Prop :=
| va_ref o n : has o "$ref" (JStr ("#/components/schemas/" ++ n)) -> In n names -> valid_schema names (JObj o)
| va_schema o t ml : absent o "$ref" -> only o schema_keys -> says_text o "type" t -> In t schema_types ->
    (t = "array" -> exists i, has o "items" i) -> says_int o "maxLength" ml -> (0 <= ml)%Z ->
    maybe o "format" text -> maybe o "description" text -> maybe o "enum" (some_of (fun _ => True)) ->
    maybe o "allOf" (some_of (valid_schema names)) -> maybe o "items" (valid_schema names) ->
    maybe o "properties" (map_of (valid_schema names)) -> maybe o "additionalProperties" (valid_schema names) -> valid_schema names (JObj o).

(** 4.7.12 Parameter Object: its name and place. *)
Definition style_for (place style : string) : Prop :=
  (place = "query" /\ In style ["form"; "spaceDelimited"; "pipeDelimited"; "deepObject"]) \/
  (place = "path" /\ In style ["matrix"; "label"; "simple"]) \/ (place = "header" /\ style = "simple") \/ (place = "cookie" /\ style = "form").
Definition valid_parameter (names : list string) (v : jval) (id : string * string) : Prop := exists o sch,
  v = JObj o /\ only o ["name"; "in"; "required"; "style"; "explode"; "schema"; "description"] /\
  has o "name" (JStr (fst id)) /\ has o "in" (JStr (snd id)) /\ In (snd id) ["query"; "header"; "path"; "cookie"] /\
  maybe o "required" flag /\ (snd id = "path" -> has o "required" (JBool true)) /\
  maybe o "style" (fun v => exists s, v = JStr s /\ style_for (snd id) s) /\ maybe o "explode" flag /\
  has o "schema" sch /\ valid_schema names sch.
(** 4.7.14 Media Type Object, 4.7.21 Header Object, 4.7.13 Request Body Object, 4.7.17 Response Object. *)
Definition valid_media (names : list string) (v : jval) : Prop := exists o,
  v = JObj o /\ only o ["schema"; "example"; "examples"; "encoding"] /\ maybe o "schema" (valid_schema names).
Definition valid_header (names : list string) (v : jval) : Prop := exists o sch,
  v = JObj o /\ only o ["required"; "schema"; "description"] /\ maybe o "required" flag /\ has o "schema" sch /\ valid_schema names sch.
Definition valid_body (names : list string) (v : jval) : Prop := exists o c,
  v = JObj o /\ only o ["content"; "required"; "description"] /\ has o "content" c /\ map_of (valid_media names) c.
Definition valid_response (names : list string) (v : jval) : Prop := exists o,
  v = JObj o /\ only o ["description"; "headers"; "content"; "links"] /\ (exists s, has o "description" (JStr s)) /\
  maybe o "headers" (map_of (valid_header names)) /\ maybe o "content" (map_of (valid_media names)).
(** 4.7.16 Responses Object: the codes. *)
Definition valid_code (k : string) : Prop := k = "default" \/ exists z, k = itoa z /\ (100 <= z <= 599)%Z.
(** 4.7.10 Operation Object, of a path: unique parameters, those in the path being the templates of the path. *)
Definition valid_operation (names : list string) (path : string) (v : jval) : Prop := exists o rs ids,
  v = JObj o /\ only o ["description"; "operationId"; "parameters"; "requestBody"; "responses"] /\
  maybe o "description" text /\ maybe o "operationId" text /\
  ((exists ps, has o "parameters" (JArr ps) /\ Forall2 (valid_parameter names) ps ids) \/ (absent o "parameters" /\ ids = [])) /\
  NoDup ids /\ (forall n, In (n, "path") ids <-> In n (templates path)) /\
  maybe o "requestBody" (valid_body names) /\
  has o "responses" (JObj rs) /\ rs <> [] /\ (forall k x, In (k, x) rs -> valid_code k /\ valid_response names x).
(** 4.7.9 Path Item Object. *)
Definition methods : list string := ["get"; "put"; "post"; "delete"; "options"; "head"; "patch"; "trace"].
Definition valid_item (names : list string) (path : string) (v : jval) : Prop := exists o,
  v = JObj o /\ only o methods /\ forall m x, has o m x -> valid_operation names path x.
(** 4.7.8 Paths Object: paths begin with a slash, and no two differ in the names of their templates only. *)
Fixpoint shape_from (inside : bool) (s : string) : string :=
  match s with
  | EmptyString => EmptyString
  | String c r => if inside then (if Ascii.eqb c "}" then String c (shape_from false r) else shape_from true r)
                  else String c (shape_from (Ascii.eqb c "{") r)
  end.
Definition shape := shape_from false.
Definition begins_with_slash (p : string) : Prop := exists r, p = String "/" r.
Definition valid_paths (names : list string) (ps : obj) : Prop :=
  (forall p x, In (p, x) ps -> begins_with_slash p /\ valid_item names p x) /\
  (forall p p', In p (map fst ps) -> In p' (map fst ps) -> shape p = shape p' -> p = p').
(** Operation ids are unique. *)
Definition operation_in (ps : obj) (p m : string) (x : obj) : Prop := exists i, In (p, JObj i) ps /\ In (m, JObj x) i.
Definition unique_ids (ps : obj) : Prop := forall p m x p' m' x' id,
  operation_in ps p m x -> operation_in ps p' m' x' -> has x "operationId" (JStr id) -> has x' "operationId" (JStr id) -> p = p' /\ m = m'.
(** 4.7.7 Components Object: the names. *)
Definition key_char (c : ascii) : Prop :=
  48 <= ord c <= 57 \/ 65 <= ord c <= 90 \/ 97 <= ord c <= 122 \/ c = "."%char \/ c = "-"%char \/ c = "_"%char.
Fixpoint key_chars (s : string) : Prop := match s with EmptyString => True | String c r => key_char c /\ key_chars r end.
Definition valid_key (s : string) : Prop := s <> "" /\ key_chars s.
Definition valid_components (v : jval) (names : list string) : Prop := exists o,
  v = JObj o /\ only o ["schemas"] /\
  ((exists ss, has o "schemas" (JObj ss) /\ names = map fst ss /\ forall k x, In (k, x) ss -> valid_key k /\ valid_schema names x) \/
   (absent o "schemas" /\ names = [])).
(** 4.7.2 to 4.7.5 Info, Contact, License and Server Object. *)
Definition valid_info (v : jval) : Prop := exists o t ve,
  v = JObj o /\ only o ["title"; "description"; "contact"; "license"; "version"] /\
  has o "title" (JStr t) /\ has o "version" (JStr ve) /\ maybe o "description" text /\
  maybe o "contact" (fun v => exists c, v = JObj c /\ only c ["name"; "url"; "email"] /\ forall k x, has c k x -> text x) /\
  maybe o "license" (fun v => exists l n, v = JObj l /\ only l ["name"; "url"] /\ has l "name" (JStr n) /\ maybe l "url" text).
Definition valid_server (v : jval) : Prop := exists o u, v = JObj o /\ only o ["url"; "description"] /\ has o "url" (JStr u) /\ maybe o "description" text.
(** 4.7.1 OpenAPI Object. *)
Definition valid_openapi (v : jval) : Prop := exists o i ps cs names,
  v = JObj o /\ only o ["openapi"; "info"; "servers"; "paths"; "components"] /\ unique_names v /\
  has o "openapi" (JStr "3.0.0") /\ has o "info" i /\ valid_info i /\ maybe o "servers" (some_of valid_server) /\
  has o "components" cs /\ valid_components cs names /\
  has o "paths" (JObj ps) /\ valid_paths names ps /\ unique_ids ps.

(** ** What routes and components must be like *)

(** Types whose schema is complete by itself: those of astra's own words but for slice, whose elements the schema
    does not tell. *)
Definition complete (t : string) : Prop := t <> "slice".
(** A field, and the fields its struct fields are made of. *)
Inductive part_of (g : Field) : Field -> Prop :=
| part_self : part_of g g
| part_field f k h : In (k, h) (f_structFields f) -> part_of g h -> part_of g f.
(** A field without its struct fields: its name is not the word for lists, and its elements are complete. *)
Record sound_node (f : Field) : Prop := {
  no_name : f_name f <> "slice";
  no_slice : f_type f = "slice" -> complete (f_sliceType f);
  no_array : f_type f = "array" -> complete (f_arrayType f) /\ (0 <= f_arrayLength f)%Z;
  no_map : f_type f = "map" -> complete (f_mapValueType f) }.
(** Names of types and packages in the characters of component names. *)
Definition path_char (c : ascii) : Prop := key_char c \/ c = "/"%char.
Fixpoint path_chars (s : string) : Prop := match s with EmptyString => True | String c r => path_char c /\ path_chars r end.
Record sound_component (c : Field) : Prop := {
  sc_parts : forall g, part_of g c -> sound_node g;
  sc_form : forall n, shown "form" (f_structFields c) n -> n <> "";
  sc_package : path_chars (f_package c);
  sc_name : key_chars (f_name c) }.
(** Mappings of the user: types of OpenAPI, and no lists, whose elements a mapping does not tell. *)
Definition sound_mapping (custom : list (string * TypeFormat)) : Prop :=
  forall k tf, In (k, tf) custom -> In (tf_type tf) schema_types /\ tf_type tf <> "array".
(** The type of a body or an answer. *)
Record sound_type (f : Field) : Prop := {
  st_slice : f_type f = "slice" -> complete (f_sliceType f);
  st_map : f_type f = "map" -> complete (f_mapValueType f) }.
(** Parameters read by name, each name once. *)
Definition named_params (l : list Param) : Prop :=
  Forall (fun p => p_isBound p = false /\ p_name p <> "" /\ complete (f_type (p_field p))) l /\ NoDup (map p_name l).
Record sound_route (r : Route) : Prop := {
  sr_slash : begins_with_slash (openapi_path (rt_path r));
  sr_path : named_params (rt_pathParams r);
  sr_templates : templates_declared (openapi_path (rt_path r)) (rt_pathParams r);
  sr_headers : named_params (rt_reqHeaders r);
  sr_query : named_params (rt_queryParams r) \/ exists p, rt_queryParams r = [p] /\ p_isBound p = true /\ sound_type (p_field p);
  sr_set : Forall (fun p => p_isBound p = false /\ complete (f_type (p_field p))) (rt_respHeaders r);
  sr_body : Forall (fun b => sound_type (b_field b)) (rt_body r);
  sr_returns : Forall (fun t => sound_type (r_field t) /\ (100 <= r_status t <= 599)%Z) (rt_returns r);
  sr_answers : rt_returns r <> [] }.
(** Routes that can stand in one document. *)
Record sound_routes (routes : list Route) : Prop := {
  ss_some : routes <> [];
  ss_routes : Forall sound_route routes;
  ss_shapes : forall r r', In r routes -> In r' routes -> shape (openapi_path (rt_path r)) = shape (openapi_path (rt_path r')) ->
    openapi_path (rt_path r) = openapi_path (rt_path r');
  ss_ids : forall r r', In r routes -> In r' routes -> rt_operationId r = rt_operationId r' -> rt_operationId r <> "" ->
    openapi_path (rt_path r) = openapi_path (rt_path r') /\ rt_method r = rt_method r' }.
