(** Specifications for the OpenAPI document. *)
From Coq Require Import List String Ascii Bool ZArith Arith Permutation Sorted.
From Verif Require Import BaseStr BaseMap M_Types M_Paths M_Tags S_Tags S_Collect M_OpenAPI S_Names.
Import ListNotations.
Local Open Scope string_scope.

(** ** Type mappings *)

(** The entry for a type: under its own name if it is built in, else under package.name. *)
Definition mapping_key (key pkg : string) : string :=
  if str_in key AcceptedTypes then key else pkg ++ "." ++ key.
(** The user's last word on a key, if any. *)
Fixpoint last_given (ops : list mapping_op) (k : string) : option TypeFormat :=
  match ops with
  | [] => None
  | GiveMapping k' tf :: r =>
      match last_given r k with
      | Some x => Some x
      | None => if String.eqb k' k then Some tf else None
      end
  | AskMapping _ _ :: r => last_given r k
  end.
Definition mapping_answer (given : list mapping_op) (key pkg : string) : option TypeFormat :=
  match last_given given (mapping_key key pkg) with
  | Some tf => Some tf
  | None => mlookup (mapping_key key pkg) PredefinedTypeMap
  end.
(** The answers to the questions of a history, each given by the mappings before it. *)
Fixpoint mapping_answers (before ops : list mapping_op) : list (option TypeFormat) :=
  match ops with
  | [] => []
  | GiveMapping k tf :: r => mapping_answers (before ++ [GiveMapping k tf]) r
  | AskMapping k p :: r => mapping_answer before k p :: mapping_answers before r
  end.
Definition is_ask (op : mapping_op) : bool := match op with AskMapping _ _ => true | _ => false end.

(** ** Operations of a document *)

(** The operation of a path item for an HTTP method (OpenAPI 3.0, Path Item Object). *)
Definition slot (method : string) (p : PathItem) : option Operation :=
  if String.eqb method "GET" then pi_get p
  else if String.eqb method "PUT" then pi_put p
  else if String.eqb method "POST" then pi_post p
  else if String.eqb method "DELETE" then pi_delete p
  else if String.eqb method "OPTIONS" then pi_options p
  else if String.eqb method "HEAD" then pi_head p
  else if String.eqb method "PATCH" then pi_patch p
  else if String.eqb method "TRACE" then pi_trace p
  else None.
Definition openapi_methods : list string :=
  ["GET"; "PUT"; "POST"; "DELETE"; "OPTIONS"; "HEAD"; "PATCH"; "TRACE"].

Definition operation_at (d : Document) (path method : string) (op : Operation) : Prop :=
  exists item, mlookup path (d_paths d) = Some item /\ slot method item = Some op.
(** [documents d r op]: [op] stands where route [r] belongs, and carries its doc and id. *)
Definition documents (d : Document) (r : Route) (op : Operation) : Prop :=
  operation_at d (openapi_path (rt_path r)) (rt_method r) op /\
  op_id op = rt_operationId r /\ op_description op = rt_doc r.

(** Routes as a router has them: no two with the same method and path. *)
Definition distinct_routes (routes : list Route) : Prop :=
  NoDup (map (fun r => (rt_method r, rt_path r)) routes).

(** A successful generation. *)
Definition generated (o : Orders) (custom : list (string * TypeFormat)) (config : option Config)
  (routes : list Route) (components : list Field) (names0 : list (string * string))
  (d : Document) (names : list (string * string)) : Prop :=
  exists c, buildDocument o custom config routes components names0 = Ok (d, c, names).

(** ** Fields and properties *)

(** The binding that counts for a field under a tag: its own binding for the tag, else its
    untagged one.  A zero binding counts as absent. *)
Definition has_binding (t : string) (f : Field) (b : BindingTag) : Prop :=
  In (t, b) (f_bindingTags f) /\ b <> bt_zero.
Definition binds (t : string) (f : Field) (b : BindingTag) : Prop :=
  has_binding t f b \/ ((forall b', ~ has_binding t f b') /\ has_binding NoBindingTag f b).
(** The binding tags of a field are a map. *)
Definition map_bindings (fields : list (string * Field)) : Prop :=
  forall k f, In (k, f) fields -> NoDup (map fst (f_bindingTags f)).

(** [shown t fields n]: some non-embedded field is shown as [n] under [t]. *)
Definition shown (t : string) (fields : list (string * Field)) (n : string) : Prop :=
  exists k f b, In (k, f) fields /\ f_isEmbedded f = false /\ binds t f b /\
    bt_notShown b = false /\ bt_name b = n.
(** Every non-embedded field has a binding for [t] or an untagged one. *)
Definition all_bound (t : string) (fields : list (string * Field)) : Prop :=
  forall k f, In (k, f) fields -> f_isEmbedded f = false -> exists b, binds t f b.

(** A component that has a schema under a tag. *)
Definition describable (custom : list (string * TypeFormat)) (t : string) (c : Field) : Prop :=
  typeMapping custom (f_name c) (f_package c) <> None \/ f_type c <> "struct" \/ all_bound t (f_structFields c).

(** All property names of an object schema, including the inline part of an allOf. *)
Definition property_names (s : Schema) : list string :=
  (map fst (s_props s) ++ flat_map (fun x => map fst (s_props x)) (s_allOf s))%list.

(** ** References *)
Fixpoint refs (s : Schema) : list string :=
  ((if String.eqb (s_ref s) "" then [] else [s_ref s])
   ++ flat_map refs (s_allOf s)
   ++ match s_items s with Some i => refs i | None => [] end
   ++ flat_map (fun p => refs (snd p)) (s_props s)
   ++ match s_addl s with Some a => refs a | None => [] end)%list.
Definition response_refs (r : Response) : list string :=
  (flat_map (fun h => refs (h_schema (snd h))) (resp_headers r)
   ++ flat_map (fun c => refs (snd c)) (resp_content r))%list.
Definition operation_refs (op : Operation) : list string :=
  (flat_map (fun p => refs (pa_schema p)) (op_parameters op)
   ++ match op_requestBody op with Some c => flat_map (fun m => refs (snd m)) c | None => [] end
   ++ flat_map (fun r => response_refs (snd r)) (op_responses op))%list.
Definition path_refs (p : PathItem) : list string :=
  flat_map (fun x => match x with Some op => operation_refs op | None => [] end)
    [pi_get p; pi_put p; pi_post p; pi_delete p; pi_options p; pi_head p; pi_patch p; pi_trace p].
Definition document_refs (d : Document) : list string :=
  (flat_map (fun p => path_refs (snd p)) (d_paths d) ++ flat_map (fun s => refs (snd s)) (d_schemas d))%list.
Definition resolves (d : Document) (r : string) : Prop :=
  exists n s, r = "#/components/schemas/" ++ n /\ mlookup n (d_schemas d) = Some s.

(** [covered custom c]: whatever tag [c] is registered under, some binding tag produces the
    schema of that name: the tag itself; for the untagged entry, a tag nobody uses; or any tag,
    if all tags share one name. *)
Definition covered (custom : list (string * TypeFormat)) (c : Field) : Prop :=
  forall t, registered c t ->
    exists bt, In bt BindingTags /\ describable custom bt c /\
      (bt = t \/ (t = NoBindingTag /\ ~ registered c bt) \/
       (~ bindings_differ (f_structFields c) /\ (registered c bt \/ registered c NoBindingTag))).

(** ** Order dependence *)

(** A struct, with the anonymous structs inside, whose map iteration order cannot be seen: one
    embedded field at most, and no two fields shown under the same name. *)
Inductive order_safe : Field -> Prop :=
| order_safe_intro f :
    map_bindings (f_structFields f) ->
    List.length (filter (fun kf => f_isEmbedded (snd kf)) (f_structFields f)) <= 1 ->
    (forall t i j k1 f1 b1 k2 f2 b2, In t BindingTags ->
       nth_error (f_structFields f) i = Some (k1, f1) -> nth_error (f_structFields f) j = Some (k2, f2) ->
       f_isEmbedded f1 = false -> f_isEmbedded f2 = false ->
       binds t f1 b1 -> binds t f2 b2 -> bt_notShown b1 = false -> bt_notShown b2 = false ->
       bt_name b1 = bt_name b2 -> i = j) ->
    (forall k g, In (k, g) (f_structFields f) -> order_safe g) ->
    order_safe f.

(** ** Parameters *)
Definition unbound (p : Param) : Prop := p_isBound p = false.
Definition entry_of (place : string) (p : Param) : string * string * bool := (p_name p, place, p_isRequired p).
Definition expected_entries (r : Route) : list (string * string * bool) :=
  (map (entry_of "path") (rt_pathParams r) ++ map (entry_of "header") (rt_reqHeaders r)
   ++ map (entry_of "query") (rt_queryParams r))%list.
Definition entries (op : Operation) : list (string * string * bool) :=
  map (fun q => (pa_name q, pa_in q, pa_required q)) (op_parameters op).

(** All fields of a struct have the same tags. *)
Definition uniform (c : Field) : Prop :=
  forall k f k' f' t, In (k, f) (f_structFields c) -> In (k', f') (f_structFields c) ->
    In t (map fst (f_bindingTags f)) -> In t (map fst (f_bindingTags f')).
