(** What a run of the service should be, said without its control flow. *)
From Coq Require Import List String Ascii Bool ZArith Arith.
From Verif Require Import BaseStr BaseMap M_Types M_Collect M_OpenAPI M_Parse M_Clean M_FS M_Service.
Import ListNotations.
Local Open Scope string_scope.

(** ** C37: the order of a run *)

(** A run as a flat list of steps, each announced by an event. *)
Definition noted (e : event) (w : World) : World :=
  mkWorld (w_fs w) (w_cwd w) (w_names w) (w_clock w) (w_past w) (e :: w_log w).

(** One step after the other up to the first that does not succeed, whose result is the result. *)
Inductive run_steps : list (event * act unit) -> Service -> World -> list event -> outcome unit -> Service -> World -> Prop :=
| rs_done s w : run_steps [] s w [] (Ok tt) s w
| rs_ok e a l s w s1 w1 es r s2 w2 :
    a s (noted e w) = (Ok tt, s1, w1) -> run_steps l s1 w1 es r s2 w2 -> run_steps ((e, a) :: l) s w (e :: es) r s2 w2
| rs_stop e a l s w r s1 w1 :
    a s (noted e w) = (r, s1, w1) -> r <> Ok tt -> run_steps ((e, a) :: l) s w [e] r s1 w1.

Fixpoint numbered {A} (n : nat) (l : list A) : list (nat * A) :=
  match l with [] => [] | a :: r => (n, a) :: numbered (S n) r end.

Section Steps.
  Context (env : Env) (s : Service).
  Definition caching : list (event * act unit) := if sv_cacheEnabled s then [(EvCache, Cache env)] else [].
  Definition setup_steps : list (event * act unit) :=
    ((EvSetup, setupDirs env) :: caching ++
     (EvCreate, aret tt) :: map (fun i => (EvCreateInput (in_mode i), runCreate env (in_create i))) (sv_inputs s) ++ caching)%list.
  Definition complete_steps : list (event * act unit) :=
    ((EvParse, aret tt) :: map (fun i => (EvParseInput (in_mode i), runParse env (in_parse i))) (sv_inputs s) ++ caching ++
     (EvClean, cleanTypes env) :: caching ++
     (EvGenerate, aret tt) :: map (fun no => (EvOutput (out_mode (snd no)), runGenerate env (fst no) (snd no))) (numbered 0 (sv_outputs s)) ++ caching ++
     [(EvTeardown, cleanUp env)])%list.
End Steps.

(** The events of a whole run, from what the service holds at its start. *)
Definition expected_events (cached : bool) (inputs outputs : list string) : list event :=
  let c := if cached then [EvCache] else [] in
  ([EvSetup] ++ c ++ [EvCreate] ++ map EvCreateInput inputs ++ c ++
   [EvParse] ++ map EvParseInput inputs ++ c ++ [EvClean] ++ c ++
   [EvGenerate] ++ map EvOutput outputs ++ c ++ [EvTeardown])%list.
