(** Running generation again on the same service. *)
From Coq Require Import List String Ascii Bool ZArith Arith.
From Verif Require Import BaseStr BaseMap M_Types M_Collect M_OpenAPI M_Parse M_Clean M_FS M_Service S_Files.
Import ListNotations.
Local Open Scope string_scope.

(** [again P n k s w s' w']: the service and world after [k] calls in a row of the function of output number [n], all
    successful, each one in some environment with [P]. *)
Inductive again (P : Env -> Prop) (n : nat) : nat -> Service -> World -> Service -> World -> Prop :=
| again_none s w : again P n 0 s w s w
| again_more k s w s1 w1 env o s2 w2 :
    again P n k s w s1 w1 -> P env -> nth_error (sv_outputs s1) n = Some o ->
    runGenerate env n o s1 w1 = (Ok tt, s2, w2) ->
    again P n (S k) s w s2 w2.

(** [k] times the same names. *)
Fixpoint times (k : nat) (l : list string) : list string :=
  match k with O => [] | S k => (l ++ times k l)%list end.

(** Where one gets by going [k] times along a path. *)
Fixpoint follow (k : nat) (p : string) (from : list string) : list string :=
  match k with O => from | S k => follow k p (locate from p) end.

(** The endings each output keeps. *)
Definition json_endings : list string := [".json"].
Definition openapi_endings : list string := [".json"; ".yaml"; ".yml"].

(** Where the file of a path with its ending is after [k] further calls: each call takes the path of the call before as
    given below the working directory. *)
Definition written_place (s : Service) (w : World) (e : string) (k : nat) : list string :=
  if is_rooted (sv_workDir s) then (times k (work_dir s w) ++ place (work_dir s w) e)%list
  else place (follow (S k) (sv_workDir s) (w_cwd w)) e.
