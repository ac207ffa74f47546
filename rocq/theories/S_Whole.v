(** What a whole run should do, from the routers to the file of the document. *)
From Coq Require Import List String Ascii Bool ZArith Arith Permutation.
From Verif Require Import BaseStr BaseMap M_Types M_Collect M_Paths M_TypeTrav M_OpenAPI M_Parse M_Clean M_FS M_Service S_Collect S_OpenAPI S_Parse S_Paths S_Cache S_Files S_Custom.
Import ListNotations.
Local Open Scope string_scope.

(** The routes the routers of the inputs serve, in order. *)
Definition router_of (i : Input) : list GinRoute := match in_create i with CrGin (Some l) => l | _ => [] end.
Definition served (s : Service) : list GinRoute := flat_map router_of (sv_inputs s).

(** A route the user has not denied. *)
Definition offered (s : Service) (i : GinRoute) : Prop := In i (served s) /\ allowed (sv_denyList s) i.

(** How many times the routes are analysed: every input of gin analyses all of them (inputs/gin/parseRoutes.go:16). *)
Definition gin_input (i : Input) : bool := match in_parse i with PaGin => true | _ => false end.
Definition times (s : Service) : nat := List.length (filter gin_input (sv_inputs s)).

(** The routers together have no route twice. *)
Definition served_once (s : Service) : Prop := NoDup (map (fun i => (gi_method i, gi_path i)) (served s)).

(** The methods that have an operation of their own in a document. *)
Definition plain_method (m : string) : Prop := In m openapi_methods /\ m <> "TRACE".

(** The analysis is the one of M_Parse, of the program found for a main package. *)
Definition analyses (env : Env) (fuel : nat) (prog : string -> program) : Prop :=
  forall main, pr_customs (prog main) = [] /\
  forall routes comps, e_analyse env [] main routes comps = GinParseRoutes fuel (prog main) routes comps.

(** The same with the custom functions [cs]. *)
Definition analyses_with (env : Env) (cs : list customFunc) (fuel : nat) (prog : string -> program) : Prop :=
  forall main, pr_customs (prog main) = cs /\
  forall routes comps, e_analyse env cs main routes comps = GinParseRoutes fuel (prog main) routes comps.

(** Where an OpenAPI output writes. *)
Definition document_place (s : Service) (w : World) (x : string) : list string :=
  place (work_dir s w) (with_extension [".json"; ".yaml"; ".yml"] x).

(** Nothing after the output [o] is written there: not by the outputs after it, not in the directory of astra, not
    as the cache. *)
Definition left_alone (s : Service) (w : World) (after : list Output) (q : list string) : Prop :=
  (forall o, In o after -> ~ output_place (work_dir s w) o q) /\
  ~ inside (work_dir s w ++ [".astra"]) q /\
  (sv_cacheEnabled s = true -> ~ inside (cache_place s w) q).

(** A service as the options leave it, before any run. *)
Definition fresh (s : Service) : Prop := sv_routes s = [] /\ sv_components s = [] /\ sv_customFuncs s = [] /\ sv_tempMain s = "".

(** The same, with custom functions or without. *)
Definition started (s : Service) : Prop := sv_routes s = [] /\ sv_components s = [] /\ sv_tempMain s = "".

(** The route of a router entry, its file given relative to the current directory. *)
Definition entry_route (i : GinRoute) (file : string) : Route :=
  mkRoute (gi_handler i) file (gi_line i) (gi_method i) (gi_path i) [] [] [] [] "" "" [] [].

(** No event binds parameters to the fields of a struct. *)
Definition unbound_events (es : list S_Parse.event) : Prop :=
  paths_of es = [] /\ Forall unbound (reqHeaders_of es) /\ Forall unbound (queries_of es).

(** What the operation of a route says about its handler: id and comment, exactly the statuses it answers with, a
    parameter for everything it reads by name, and, if it binds nothing, no others than these and the
    parameters of the path. *)
Definition tells (op : Operation) (path : string) (id : option string) (doc : string) (es : list S_Parse.event) : Prop :=
  op_id op = (match id with Some x => x | None => "" end) /\ op_description op = TrimSpace (FormatDoc doc) /\
  (forall status, In status (map fst (op_responses op)) <-> exists rt, In (EReturn rt) es /\ status = itoa (r_status rt)) /\
  (forall p, In (EQuery p) es -> unbound p -> In (p_name p, "query", p_isRequired p) (entries op)) /\
  (forall p, In (EReqHeader p) es -> unbound p -> In (p_name p, "header", p_isRequired p) (entries op)) /\
  exists ps, seg_params (split "/" path) ps /\
    (forall mn, In mn ps -> In (snd mn, "path", Ascii.eqb (fst mn) ":") (entries op)) /\
    (unbound_events es ->
     Permutation (map (fun mn => (snd mn, "path", Ascii.eqb (fst mn) ":")) ps ++ map (entry_of "header") (reqHeaders_of es) ++
                  map (entry_of "query") (queries_of es)) (entries op)).

(** The same of a handler analysed [n] times: the parameters read by name are listed [n] times. *)
Definition tells_times (n : nat) (op : Operation) (path : string) (id : option string) (doc : string) (es : list S_Parse.event) : Prop :=
  op_id op = (match id with Some x => x | None => "" end) /\ op_description op = TrimSpace (FormatDoc doc) /\
  (forall status, In status (map fst (op_responses op)) <-> exists rt, In (EReturn rt) es /\ status = itoa (r_status rt)) /\
  (forall p, In (EQuery p) es -> unbound p -> In (p_name p, "query", p_isRequired p) (entries op)) /\
  (forall p, In (EReqHeader p) es -> unbound p -> In (p_name p, "header", p_isRequired p) (entries op)) /\
  exists ps, seg_params (split "/" path) ps /\
    (forall mn, In mn ps -> In (snd mn, "path", Ascii.eqb (fst mn) ":") (entries op)) /\
    (unbound_events es ->
     Permutation (map (fun mn => (snd mn, "path", Ascii.eqb (fst mn) ":")) ps ++
                  List.concat (repeat (map (entry_of "header") (reqHeaders_of es) ++ map (entry_of "query") (queries_of es))%list n)) (entries op)).

(** What an operation says of a route, up to the types of what it names: every status and no other, a parameter for everything
    named, no others if nothing is bound, and no content of an answer or a request that is not recorded. *)
Definition conveys (op : Operation) (r : Route) : Prop :=
  op_id op = rt_operationId r /\ op_description op = rt_doc r /\
  (forall status, In status (map fst (op_responses op)) <-> exists rt, In rt (rt_returns r) /\ status = itoa (r_status rt)) /\
  (forall p, In p (rt_pathParams r) -> unbound p -> In (p_name p, "path", p_isRequired p) (entries op)) /\
  (forall p, In p (rt_reqHeaders r) -> unbound p -> In (p_name p, "header", p_isRequired p) (entries op)) /\
  (forall p, In p (rt_queryParams r) -> unbound p -> In (p_name p, "query", p_isRequired p) (entries op)) /\
  (Forall unbound (rt_pathParams r) -> Forall unbound (rt_reqHeaders r) -> Forall unbound (rt_queryParams r) ->
   Permutation (expected_entries r) (entries op)) /\
  (forall status resp content, mlookup status (op_responses op) = Some resp -> In content (map fst (resp_content resp)) ->
     exists rt, In rt (rt_returns r) /\ status = itoa (r_status rt) /\ content = r_contentType rt) /\
  (forall content, In content (match op_requestBody op with Some l => map fst l | None => [] end) ->
     exists b, In b (rt_body r) /\ b_contentType b = content).
