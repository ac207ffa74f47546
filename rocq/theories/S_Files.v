(** Which places of the file tree a run may change. *)
From Coq Require Import List String Ascii Bool ZArith Arith.
From Verif Require Import BaseStr BaseMap M_Types M_Collect M_OpenAPI M_Parse M_Clean M_FS M_Service S_Cache P_FS P_Path.
Import ListNotations.
Local Open Scope string_scope.

(** The working directory of a service: the configured one, or the current one. *)
Definition work_dir (s : Service) (w : World) : list string := locate (w_cwd w) (sv_workDir s).
(** A configured path, always taken below the working directory, even if it starts with a slash. *)
Definition place (base : list string) (x : string) : list string := locate base ("./" ++ x).
(** At the place or below it. *)
Definition inside (p q : list string) : Prop := exists r, q = (p ++ r)%list.

Definition with_extension (exts : list string) (x : string) : string :=
  if existsb (fun e => has_suffix e x) exts then x else x ++ ".json".

(** The places an output is about. *)
Definition output_place (base : list string) (o : Output) (q : list string) : Prop :=
  match out_generate o with
  | GeJSON x => q = place base (with_extension [".json"] x)
  | GeOpenAPI x => q = place base (with_extension [".json"; ".yaml"; ".yml"] x)
  | GeAzure d => inside (place base d) q
  | GeNil | GeUser _ => False
  end.

(** Whether the directory of astra is only for the run. *)
Definition temporary (s : Service) : Prop := sv_cacheEnabled s = false /\ sv_cliMode s = CLIModeNone.
Definition is_azure (o : Output) : Prop := exists d, out_generate o = GeAzure d.

(** The places a run is about in the directory of astra: the directory, its .gitignore, the temporary main package, the
    temporary Azure output, and all of it if it is only for the run. *)
Definition astra_place (s : Service) (astra q : list string) : Prop :=
  q = astra \/ q = (astra ++ [".gitignore"])%list \/ inside (astra ++ ["astramain"]) q \/
  ((exists o, In o (sv_outputs s) /\ is_azure o) /\ inside (astra ++ ["azure"]) q) \/
  (temporary s /\ inside astra q).

(** The places a run is about: those, the cache, the outputs. *)
Definition run_place (s : Service) (w : World) (q : list string) : Prop :=
  astra_place s (work_dir s w ++ [".astra"]) q \/
  (sv_cacheEnabled s = true /\ inside (cache_place s w) q) \/
  exists o, In o (sv_outputs s) /\ output_place (work_dir s w) o q.

(** A file system: no name is empty, a dot or dot-dot element, or has a slash. *)
Definition sane (w : World) : Prop :=
  Forall plain_name (w_cwd w) /\ (forall q, kind_at q (w_fs w) <> None -> Forall plain_name q).

(** The trees that came up between two worlds, the last one included. *)
Definition came_up (w w' : World) (t : tree content) : Prop :=
  t = w_fs w' \/ exists new, w_past w' = (new ++ w_past w)%list /\ In t new.
