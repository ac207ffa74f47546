(** A small world and service for the examples beside the theorems. *)
From Coq Require Import List String Ascii Bool ZArith Arith.
From Verif Require Import BaseStr BaseMap M_Types M_Collect M_OpenAPI M_Parse M_Clean M_FS M_Service S_Names.
Import ListNotations.
Local Open Scope string_scope.

(** A small world to run in. *)
Definition ex_env (fault : nat -> option content) : Env :=
  mkEnv fault (fun _ file => Some file) (fun _ _ => false) (fun _ _ routes comps => Ok (routes, comps, None))
    (fun _ _ => None) plain_orders.
Definition no_fault : nat -> option content := fun _ => None.
Definition fault_at (n : nat) : nat -> option content := fun k => if Nat.eqb k n then Some (CBytes "") else None.

Definition nl : string := str1 (ascii_of_nat 10).
Definition ex_tree : tree content :=
  Dir [("home", Dir [("go.mod", File (CBytes ("module example.com/app" ++ nl ++ "go 1.21" ++ nl)));
                     ("main.go", File (CBytes ("package main" ++ nl)));
                     ("notes.txt", File (CBytes "mine"))])].
Definition ex_world : World := mkWorld ex_tree ["home"] [] 0 [] [].
Definition ex_router : list GinRoute := [mkGin "GET" "/ping" "main.ping" "/home/main.go" 3%Z].
Definition ex_service : Service :=
  New [WithGinInput (Some ex_router); WithJSONOutput "out"; WithJSONOutput "missing/out"].

