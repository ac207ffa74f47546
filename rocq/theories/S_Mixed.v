(** Generating again and again with other outputs in between. *)
From Coq Require Import List String Ascii Bool ZArith Arith.
From Verif Require Import BaseStr BaseMap M_Types M_Collect M_OpenAPI M_Parse M_Clean M_FS M_Service S_Files S_Again.
Import ListNotations.
Local Open Scope string_scope.

(** [calls P l s w s' w']: the service and world after the functions of the outputs with the numbers [l] have been called
    in this order, all successfully, each one in some environment with [P].  In between anything can happen to the files
    ([calls_files]: the process stays in its directory and gives no names to components). *)
Inductive calls (P : Env -> Prop) (s : Service) (w : World) : list nat -> Service -> World -> Prop :=
| calls_none : calls P s w [] s w
| calls_files l s1 w1 w2 :
    calls P s w l s1 w1 -> w_cwd w2 = w_cwd w1 -> w_names w2 = w_names w1 -> calls P s w l s1 w2
| calls_more l n s1 w1 env o s2 w2 :
    calls P s w l s1 w1 -> P env -> nth_error (sv_outputs s1) n = Some o ->
    runGenerate env n o s1 w1 = (Ok tt, s2, w2) ->
    calls P s w (l ++ [n]) s2 w2.

(** A call of output number [n] that comes after the calls [l]. *)
Definition called_after (P : Env -> Prop) (l : list nat) (n : nat) (s : Service) (w : World) (s' : Service) (w' : World) : Prop :=
  exists s1 w1 env o,
    calls P s w l s1 w1 /\ P env /\ nth_error (sv_outputs s1) n = Some o /\ runGenerate env n o s1 w1 = (Ok tt, s', w').

(** How often [n] is in [l]. *)
Fixpoint count (n : nat) (l : list nat) : nat :=
  match l with [] => 0 | m :: l => if Nat.eqb m n then S (count n l) else count n l end.

(** [k] runs of generation in a row, all successful. *)
Inductive generations (P : Env -> Prop) (s : Service) (w : World) : nat -> Service -> World -> Prop :=
| gen_none : generations P s w 0 s w
| gen_more k s1 w1 env s2 w2 :
    generations P s w k s1 w1 -> P env -> Generate env s1 w1 = (Ok tt, s2, w2) -> generations P s w (S k) s2 w2.

(** All outputs in their order, [k] times. *)
Fixpoint rounds (k m : nat) : list nat :=
  match k with O => [] | S k => (rounds k m ++ seq 0 m)%list end.

(** The outputs that write one file. *)
Definition one_file (o : Output) : Prop :=
  exists x, out_generate o = GeJSON x \/ out_generate o = GeOpenAPI x.

(** Where the call of an output that comes after [k] calls of it writes its file. *)
Definition file_of (s : Service) (w : World) (o : Output) (k : nat) : list string :=
  match out_generate o with
  | GeJSON x => written_place s w (with_extension json_endings x) k
  | GeOpenAPI x => written_place s w (with_extension openapi_endings x) k
  | _ => []
  end.
