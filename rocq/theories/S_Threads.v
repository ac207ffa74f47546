(** What goroutines that share a package manager should see. *)
From Coq Require Import List String Ascii Bool Arith.
From Verif Require Import BaseStr BaseMap M_Types M_Packages M_Threads S_Packages.
Import ListNotations.
Local Open Scope string_scope.

Section Runs.
  Context (loaders : list (string -> option string)) (disk : string -> string -> option package) (workDir : string).

  (** Executions, with the locked sections in the order in which they end. *)
  Inductive runs (work : list (list request)) : list (nat * happening) -> process -> Prop :=
  | runs_start : runs work [] (fresh work)
  | runs_step l s t s' h : runs work l s -> tstep loaders disk workDir t s = Some (s', h) ->
      runs work (l ++ match h with Some x => [(t, x)] | None => [] end) s'.

  (** One execution goes on. *)
  Inductive steps : process -> process -> Prop :=
  | steps_none s : steps s s
  | steps_more s t s1 h s2 : tstep loaders disk workDir t s = Some (s1, h) -> steps s1 s2 -> steps s s2.

  Definition finished (s : process) : Prop := Forall (fun g => g_place g = PIdle /\ g_todo g = []) (p_threads s).
  Definition stuck (s : process) : Prop := forall t, tstep loaders disk workDir t s = None.
End Runs.

(** What a goroutine does to shared memory in its next step: where, and whether it writes.  Creating a node
    writes the edges of its parent; the node itself is not yet shared. *)
Inductive location := LEdges (p : nat) | LPackage (p : nat) | LFiles (p : nat) | LCache.
Definition access (pl : place) : option (location * bool) :=
  match pl with
  | PAddWalk _ cur (_ :: _) _ => Some (LEdges cur, false)
  | PAddNew _ cur _ _ _ => Some (LEdges cur, true)
  | PFindWalk _ cur (_ :: _) _ => Some (LEdges cur, false)
  | PGetCheck p => Some (LPackage p, false)
  | PGetCached _ _ => Some (LCache, false)
  | PGetStore _ _ _ => Some (LCache, true)
  | PGetSet p _ => Some (LPackage p, true)
  | PGetRange p => Some (LPackage p, false)
  | PGetAppend p _ _ => Some (LFiles p, true)
  | PGetReturn p => Some (LPackage p, false)
  | _ => None
  end.
(** A data race: two goroutines are about to access one place, and one of them writes. *)
Definition race (s : process) (x : location) : Prop := exists t t' g g' w w',
  t <> t' /\ nth_error (p_threads s) t = Some g /\ nth_error (p_threads s) t' = Some g' /\
  access (g_place g) = Some (x, w) /\ access (g_place g') = Some (x, w') /\ (w = true \/ w' = true).

(** The tree alone: no packages are loaded. *)
Definition tree (m : manager) : manager := map (fun n => mkNode (n_parent n) (n_name n) (n_edges n) None []) m.
(** The calls one after the other, by the functions for one goroutine. *)
Inductive one_by_one : list (nat * happening) -> manager -> Prop :=
| one_none : one_by_one [] NewPackageManager
| one_add l m t path m' q : one_by_one l m -> AddPackage m path = (m', q) -> one_by_one (l ++ [(t, HAdd path q)]) m'
| one_find l m t path : one_by_one l m -> one_by_one (l ++ [(t, HFind path (Find m path))]) m.

(** Requests that end with a node: for a path, which node. *)
Definition asks (r : request) : string := match r with RAdd p _ => p | RFind p => p | RFindOrAdd p _ => p end.
Definition gets (r : request) : bool := match r with RAdd _ b => b | RFind _ => false | RFindOrAdd _ b => b end.
Definition got (s : process) (r : request) (q : option nat) : Prop := exists g, In g (p_threads s) /\ In (r, q) (g_got g).
(** Packages are loaded by one goroutine at most. *)
Definition one_loader (work : list (list request)) : Prop := exists t, forall t' l r, nth_error work t' = Some l -> In r l -> gets r = true -> t' = t.
(** A goroutine is loading a package. *)
Fixpoint loads_for (k : caller) : bool := match k with CSelf _ => false | COrAdd _ k => loads_for k | CImport _ _ _ _ => true end.
Definition loading (pl : place) : bool := match pl with
  | PIdle => false
  | PAddLock _ k | PAddWalk _ _ _ k | PAddNew _ _ _ _ k | PAddUnlock _ _ k | PFindLock _ k | PFindWalk _ _ _ k | PFindUnlock _ _ k => loads_for k
  | _ => true
  end.
