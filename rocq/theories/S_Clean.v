(** Specifications for cleaning. *)
From Coq Require Import List String Ascii Bool ZArith.
From Verif Require Import M_Types.
Import ListNotations.
Local Open Scope string_scope.

(** [reaches f p g]: going from [f] through struct fields along the names [p] leads to [g]. *)
Inductive reaches : Field -> list string -> Field -> Prop :=
| re_here f : reaches f [] f
| re_in f k g p h : In (k, g) (f_structFields f) -> reaches g p h -> reaches f (k :: p) h.

(** A package path that occurs anywhere in a field. *)
Definition mentions (pkg : string) (f : Field) : Prop :=
  exists p g, reaches f p g /\ (f_package g = pkg \/ f_mapKeyPackage g = pkg).

(** The fields of a route, headers included. *)
Inductive header_field (r : Route) : Field -> Prop :=
| hf_request p : In p (rt_reqHeaders r) -> header_field r (p_field p)
| hf_response p : In p (rt_respHeaders r) -> header_field r (p_field p).
Inductive other_field (r : Route) : Field -> Prop :=
| of_path p : In p (rt_pathParams r) -> other_field r (p_field p)
| of_query p : In p (rt_queryParams r) -> other_field r (p_field p)
| of_body b : In b (rt_body r) -> other_field r (b_field b)
| of_return t : In t (rt_returns r) -> other_field r (r_field t).

(** All fields of a service, and all but the headers. *)
Definition result_field (components : list Field) (routes : list Route) (f : Field) : Prop :=
  In f components \/ exists r, In r routes /\ (other_field r f \/ header_field r f).
Definition result_field_no_header (components : list Field) (routes : list Route) (f : Field) : Prop :=
  In f components \/ exists r, In r routes /\ other_field r f.

(** How a package path reads afterwards. *)
Inductive reads_as (temp : string) : string -> string -> Prop :=
| ra_main : reads_as temp temp "main"
| ra_same p : p <> temp -> reads_as temp p p.

(** The types with a substitute: time.Duration and error. *)
Inductive substituted : Field -> string -> Prop :=
| su_duration f : f_package f = "time" -> f_name f = "Duration" -> substituted f "int"
| su_error f : f_package f = "" -> f_name f = "error" -> substituted f "string".

(** Names are Go identifiers. *)
Definition identifier_names (f : Field) : Prop :=
  forall p g, reaches f p g -> f_name g <> "time.Duration".

(** Everything about a field but its packages and its struct fields. *)
Definition rest_of (f : Field) :=
  (f_type f, f_name f, f_enum f, f_isRequired f, f_isEmbedded f, f_sliceType f, f_arrayType f,
   f_arrayLength f, f_mapKeyType f, f_mapValueType f, f_bindingTags f, f_validationTags f, f_doc f).

(** [g] is [f] with its package paths as they read afterwards and its struct fields likewise. *)
Definition same_but_packages (temp : string) (f g : Field) : Prop :=
  reads_as temp (f_package f) (f_package g) /\ reads_as temp (f_mapKeyPackage f) (f_mapKeyPackage g) /\
  rest_of g = rest_of f /\ map fst (f_structFields g) = map fst (f_structFields f).
