(** What routers and handlers must be like for the document of a run to be valid OpenAPI. *)
From Coq Require Import List String Ascii Bool ZArith.
From Verif Require Import BaseStr BaseMap M_Types M_Tags M_Collect M_Paths M_TypeTrav M_OpenAPI M_Parse M_Clean M_FS M_Service S_Collect S_Names S_Tags S_Paths S_OpenAPI S_Parse S_Valid S_Whole.
Import ListNotations.
Local Open Scope string_scope.

(** What a handler does: it answers, with statuses there are, reads parameters by name and each once (or binds the
    whole query to a type), and what it sends and receives is no list of lists. *)
Record sound_events (es : list S_Parse.event) : Prop := {
  se_path : paths_of es = [];
  se_headers : named_params (reqHeaders_of es);
  se_query : named_params (queries_of es) \/ exists p, queries_of es = [p] /\ p_isBound p = true /\ sound_type (p_field p);
  se_set : Forall (fun p => p_isBound p = false /\ complete (f_type (p_field p))) (respHeaders_of es);
  se_body : Forall (fun b => sound_type (b_field b)) (bodies_of es);
  se_returns : Forall (fun t => sound_type (r_field t) /\ (100 <= r_status t <= 599)%Z) (returns_of es);
  se_answers : returns_of es <> [] }.

(** The handler of a router entry has the id [id] and does [es], in the program of the run that ends in [s']. *)
Definition behaves (env : Env) (prog : string -> program) (w : World) (s' : Service) (i : GinRoute) (id : option string) (es : list S_Parse.event) : Prop :=
  exists file f g ctx strict regs last, e_rel env ("/" ++ join "/" (w_cwd w)) (gi_file i) = Some file /\ ctx <> "" /\
    forall main, main = "" \/ main = sv_tempMain s' ->
      handler_of (prog main) (entry_route i file) f g id /\ fn_ctx (pr_funcs (prog main) g) f = Ok ctx /\
      S_Parse.documents (pr_funcs (prog main)) strict ctx f (fn_body (pr_funcs (prog main) g)) es regs last.

(** A path without catch-all parameter and with no parameter twice. *)
Definition plain_path (path : string) : Prop :=
  gin_path path /\ begins_with_slash path /\ has_char "*" path = false /\ forall ps, seg_params (split "/" path) ps -> NoDup (map snd ps).

(** The routers: some route is offered, all have plain paths and sound handlers, no two differ in the names of path parameters
    only, and no two have handlers of one id; [ids] are the ids of the handlers. *)
Record sound_routers (env : Env) (prog : string -> program) (w : World) (s s' : Service) (ids : GinRoute -> option string) : Prop := {
  so_some : exists i, offered s i;
  so_paths : forall i, offered s i -> plain_path (gi_path i);
  so_handlers : forall i, offered s i -> exists es, behaves env prog w s' i (ids i) es /\ sound_events es;
  so_shapes : forall i i', offered s i -> offered s i' -> shape (openapi_path (gi_path i)) = shape (openapi_path (gi_path i')) -> gi_path i = gi_path i';
  so_ids : forall i i' id, offered s i -> offered s i' -> ids i = Some id -> ids i' = Some id -> id <> "" ->
    gi_path i = gi_path i' /\ gi_method i = gi_method i' }.

(** Components that can be documented (C18, C76). *)
Record sound_components (custom : list (string * TypeFormat)) (components : list Field) : Prop := {
  sm_parsed : parsed_components components;
  sm_unambiguous : unambiguous components;
  sm_keys : NoDup (map comp_key components);
  sm_covered : forall c, In c components -> covered custom c;
  sm_sound : Forall sound_component components }.

(** The components the analysis of the routes finds. *)
Definition found (env : Env) (fuel : nat) (prog : string -> program) (s : Service) (w : World) (s' : Service) (components : list Field) : Prop :=
  exists main rs routes, (main = "" \/ main = sv_tempMain s') /\
    created (e_rel env ("/" ++ join "/" (w_cwd w))) (sv_denyList s) (served s) rs /\
    GinParseRoutes fuel (prog main) rs [] = Ok (routes, components, None).

(** The types a program can register as components: those of the arguments of methods of the context. *)
Definition component_of (prog : program) (c : Field) : Prop :=
  exists g k f name a x, S_Parse.occurs k (fn_body (pr_funcs prog g)) /\ c_obj k f = OFunc name (Some the_context) /\
    In a (c_args k) /\ In x (fst (a_result a f)) /\ c = ParseResultToField x /\ f_package c <> "".

(** All of them can be documented. *)
Record sound_types (custom : list (string * TypeFormat)) (temp : string) (prog : program) : Prop := {
  sy_main : forall c, component_of prog c -> f_package c <> "main";
  sy_names : forall c, component_of prog c -> has_char "." (f_name c) = false;
  sy_parsed : forall c, component_of prog c -> parsed_fields (f_structFields (cleanField temp c));
  sy_covered : forall c, component_of prog c -> covered custom (cleanField temp c);
  sy_sound : forall c, component_of prog c -> sound_component (cleanField temp c);
  sy_packages : forall c1 c2 t, component_of prog c1 -> component_of prog c2 -> In t BindingTags ->
    f_package (cleanField temp c1) <> f_package (cleanField temp c2) ++ "." ++ t }.
