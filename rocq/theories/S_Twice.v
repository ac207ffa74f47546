(** Runs after other runs. *)
From Coq Require Import List String Ascii Bool ZArith Arith.
From Verif Require Import BaseStr BaseMap M_Types M_Collect M_OpenAPI M_Parse M_Clean M_FS M_Service S_Cache S_Files P_FS P_Path.
Import ListNotations.
Local Open Scope string_scope.

(** A service for this working directory, with the cache, if any, at its default place and no Azure output. *)
Definition ordinary (base : list string) (s : Service) (w : World) : Prop :=
  work_dir s w = base /\ (sv_cacheEnabled s = true -> sv_cachePath s = "") /\ Forall (fun o => ~ is_azure o) (sv_outputs s).

(** The places of the documents of a service. *)
Definition document_place (base : list string) (s : Service) (q : list string) : Prop :=
  exists o, In o (sv_outputs s) /\ output_place base o q.

(** The trees that any number of runs can leave, each of any such service, in any environment, with any result, and broken
    off at any moment, with the places of their documents.  A run is a whole one or the completing half alone. *)
Inductive tried (base : list string) (t0 : tree content) : (list string -> Prop) -> tree content -> Prop :=
| tried_none : tried base t0 (fun _ => False) t0
| tried_run docs env s w r s' w' t :
    tried base t0 docs (w_fs w) -> Forall plain_name (w_cwd w) -> ordinary base s w ->
    Parse env s w = (r, s', w') \/ (sv_workDir s <> "" /\ CompleteParse env s w = (r, s', w')) ->
    came_up w w' t -> tried base t0 (fun q => docs q \/ document_place base s q) t.

(** ** Set-up, then the command line *)

(** A service as the options make it: Gin inputs, JSON and OpenAPI outputs with a path, as the command line can rebuild them. *)
Definition plain_input (i : Input) : Prop := in_mode i = "gin" /\ in_parse i = PaGin.
Definition plain_output (o : Output) : Prop :=
  exists x, (file_output o "json" x /\ out_generate o = GeJSON x) \/ (file_output o "openapi" x /\ out_generate o = GeOpenAPI x).
Definition plain_service (s : Service) : Prop :=
  Forall plain_input (sv_inputs s) /\ Forall plain_output (sv_outputs s) /\
  sv_tempMain s = "" /\ sv_customFuncs s = [] /\ sv_customTypes s = [] /\ sv_memo s = None /\ sv_cachePath s = "".

(** Environments that answer alike, but for faults. *)
Definition same_answers (e e' : Env) : Prop :=
  e_rel e = e_rel e' /\ e_usesMain e = e_usesMain e' /\ e_analyse e = e_analyse e' /\ e_orders e = e_orders e'.

(** What the set-up finds is text: the entries of the routers and the relative paths. *)
Definition text_entry (g : GinRoute) : Prop := utf8 (gi_method g) /\ utf8 (gi_path g) /\ utf8 (gi_handler g).
Definition text_input (i : Input) : Prop := forall l, in_create i = CrGin (Some l) -> Forall text_entry l.
Definition text_paths (env : Env) : Prop := forall d f r, e_rel env d f = Some r -> utf8 r.
