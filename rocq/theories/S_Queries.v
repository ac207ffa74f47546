(** The query parameters that the source of a handler asks for. *)
From Coq Require Import List String Ascii Bool ZArith Arith.
From Verif Require Import BaseStr M_Types M_TypeTrav S_TypeTrav M_OpenAPI M_Parse S_Parse M_Resolve S_Resolve S_Typed S_Sends.
Import ListNotations.
Local Open Scope string_scope.

Definition string_type : gtype := GBasic "string" KString.
(** Methods that read the query parameter of a name, and what its values are.  DefaultQuery is another, but
    the code does not know it: C72_default_refuted. *)
Definition query_readers : list (string * gtype) :=
  [("Query", string_type); ("GetQuery", string_type);
   ("QueryArray", GSlice string_type); ("GetQueryArray", GSlice string_type);
   ("QueryMap", GMap string_type string_type); ("GetQueryMap", GMap string_type string_type)].
(** Methods that read the query parameters into a struct. *)
Definition query_binders : list string := ["BindQuery"; "ShouldBindQuery"; "Bind"; "ShouldBind"].

Section Queries.
  Context (co : code) (home : nat -> option (file * string * funcref)) (ctx : string) (f : file) (e : ex).

  (** The query parameter of this name is read, its values are of the type. *)
  Definition reads_query (name : string) (T : gtype) : Prop :=
    exists m a rest f0, calls co home ctx f e m (a :: rest) f0 /\ In (m, T) query_readers /\ text_of co f0 a name.
  (** The query parameters are read into a value of the type. *)
  Definition binds_query (T : gtype) : Prop :=
    exists m a rest f0, calls co home ctx f e m (a :: rest) f0 /\ In m query_binders /\ typed co f0 a T.
End Queries.

Section Struct.
  Context (env : TypeEnv) (custom : list (string * TypeFormat)) (main : string).
  (** Behind pointers a type with a name, defined as a struct of these fields, none embedded. *)
  Definition query_struct (T : gtype) (fs : list (gfield gtype)) : Prop :=
    exists id p, behind T = GNamed id /\ te_pkg env id = Some p /\ te_under env id = GStruct fs /\
      typeMapping custom (te_name env id) (spoken main p) = None /\
      forall f, In f fs -> gf_exported f = true -> gf_embedded f = false.
End Struct.

(** The operation has a query parameter of this name with this schema. *)
Definition has_query (op : Operation) (required : bool) (name : string) (s : Schema) : Prop :=
  exists q, In q (op_parameters op) /\ pa_in q = "query" /\ pa_name q = name /\ pa_required q = required /\ pa_schema q = s.
