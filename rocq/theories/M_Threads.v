(** The package manager used by several goroutines: astTraversal/packageManager.go, loadPackage.go:9-26.

    A step is one access to what goroutines share (the edges, the package or the files of a node, the cache of packages)
    or one operation on the lock; steps of goroutines are interleaved in any way.  Name and Parent of a node
    are written before the node can be reached and never again.  Simplified: Get reads the file set of the package
    (line 88) where it reads its files (line 85). *)
From Coq Require Import List String Ascii Bool Arith.
From Verif Require Import BaseStr BaseMap M_Types M_Parse M_Packages.
Import ListNotations.
Local Open Scope string_scope.

(** What a goroutine asks for; with [get] it then calls Get on the node, as parseRoute.go:46-51 and type.go do. *)
Inductive request := RAdd (path : string) (get : bool) | RFind (path : string) | RFindOrAdd (path : string) (get : bool).

(** Who is waiting for the node that Find or AddPackage gives: the goroutine itself, FindOrAdd (packageManager.go:123-130),
    or MapImportSpecs (132-147) in Get, with the imports of the file done and to do and the files to do. *)
Inductive caller :=
| CSelf (get : bool)
| COrAdd (path : string) (k : caller)
| CImport (p : nat) (done : list nat) (imports : list string) (files : list (list string)).

(** Where a goroutine is. *)
Inductive place :=
| PIdle
| PAddLock (path : string) (k : caller)                                        (* packageManager.go:36 *)
| PAddWalk (path : string) (cur : nat) (steps : list string) (k : caller)      (* 40-48 *)
| PAddNew (path : string) (cur : nat) (step : string) (steps : list string) (k : caller) (* 50-59 *)
| PAddUnlock (path : string) (q : nat) (k : caller)                            (* 37, on return *)
| PFindLock (path : string) (k : caller)                                       (* 96 *)
| PFindWalk (path : string) (cur : nat) (steps : list string) (k : caller)     (* 101-114 *)
| PFindUnlock (path : string) (r : option nat) (k : caller)                    (* 97, on return *)
| PGetCheck (p : nat)                                                          (* 66 *)
| PGetCached (p : nat) (path : string)                                         (* loadPackage.go:14 *)
| PGetStore (p : nat) (path : string) (pkg : package)                          (* loadPackage.go:23 *)
| PGetSet (p : nat) (pkg : package)                                            (* packageManager.go:80 *)
| PGetRange (p : nat)                                                          (* 82 *)
| PGetImports (p : nat) (done : list nat) (imports : list string) (files : list (list string)) (* 87 *)
| PGetAppend (p : nat) (done : list nat) (files : list (list string))          (* 83 *)
| PGetReturn (p : nat).                                                        (* 92 *)

(** A goroutine: where it is, what it asks for now and later, and what it got. *)
Record goroutine := mkG { g_place : place; g_now : option request; g_todo : list request; g_got : list (request * option nat) }.
(** The memory, the holder of the mutex, the cache, and the goroutines. *)
Record process := mkProc { p_mem : manager; p_mu : option nat; p_cache : cachedPackages; p_threads : list goroutine }.

(** What happens at the end of a locked section. *)
Inductive happening := HAdd (path : string) (q : nat) | HFind (path : string) (r : option nat).

(** Where a goroutine starts. *)
Definition start (r : request) : place :=
  match r with
  | RAdd path get => PAddLock path (CSelf get)
  | RFind path => PFindLock path (CSelf false)
  | RFindOrAdd path get => PFindLock path (COrAdd path (CSelf get))
  end.

(** The goroutine is given the node it asked for. *)
Definition give (r : option nat) (g : goroutine) : goroutine :=
  match g_now g with
  | Some q => mkG (g_place g) None (g_todo g) (g_got g ++ [(q, r)])%list
  | None => g
  end.
(** The goroutine at another place. *)
Definition go (pl : place) (g : goroutine) : goroutine := mkG pl (g_now g) (g_todo g) (g_got g).

(** Find or AddPackage return to their caller. *)
Fixpoint resume (k : caller) (r : option nat) (g : goroutine) : goroutine :=
  match k with
  | CSelf get => go (match get, r with true, Some q => PGetCheck q | _, _ => PIdle end) (give r g)
  | COrAdd path k => match r with Some q => resume k (Some q) g | None => go (PAddLock path k) g end
  | CImport p done imports files => match r with Some q => go (PGetImports p (done ++ [q])%list imports files) g | None => go PIdle g end
  end.

Section Steps.
  Context (loaders : list (string -> option string)) (disk : string -> string -> option package) (workDir : string).

  (** One step of goroutine [t]: what it makes of the tree, the lock and the cache, and of itself; nothing if it has
      to wait or has nothing left to do. *)
  Definition tick (t : nat) (g : goroutine) (m : manager) (mu : option nat) (c : cachedPackages)
    : option (manager * option nat * cachedPackages * goroutine * option happening) :=
    match g_place g with
    | PIdle => match g_todo g with
               | [] => None
               | r :: rest => Some (m, mu, c, mkG (start r) (Some r) rest (g_got g), None)
               end
    (* packageManager.go:33-63 *)
    | PAddLock path k => match mu with
                         | Some _ => None
                         | None => Some (m, Some t, c, go (PAddWalk path 0 (split "/" path) k) g, None)
                         end
    | PAddWalk path cur [] k => Some (m, mu, c, go (PAddUnlock path cur k) g, None)
    | PAddWalk path cur (step :: rest) k =>
        Some (m, mu, c, go (match edge m cur step with Some q => PAddWalk path q rest k | None => PAddNew path cur step rest k end) g, None)
    | PAddNew path cur step rest k => Some (newEdge m cur step, mu, c, go (PAddWalk path (List.length m) rest k) g, None)
    | PAddUnlock path q k => Some (m, None, c, resume k (Some q) g, Some (HAdd path q))
    (* packageManager.go:95-121 *)
    | PFindLock path k => match mu with
                          | Some _ => None
                          | None => Some (m, Some t, c, go (PFindWalk path 0 (split "/" path) k) g, None)
                          end
    | PFindWalk path cur [] k => Some (m, mu, c, go (PFindUnlock path (if Nat.eqb cur 0 then None else Some cur) k) g, None)
    | PFindWalk path cur (step :: rest) k =>
        Some (m, mu, c, go (match edge m cur step with Some q => PFindWalk path q rest k | None => PFindUnlock path None k end) g, None)
    | PFindUnlock path r k => Some (m, None, c, resume k r g, Some (HFind path r))
    (* packageManager.go:65-93 with loadPackage.go:13-26; the path of a node never changes *)
    | PGetCheck p =>
        match n_package (node m p) with
        | Some _ => Some (m, mu, c, go (PGetReturn p) g, None)
        | None => match Path (S (List.length m)) m p with
                  | Ok path => Some (m, mu, c, go (PGetCached p (loadedPath loaders path)) g, None)
                  | _ => None
                  end
        end
    | PGetCached p path =>
        match mlookup path c with
        | Some pkg => Some (m, mu, c, go (PGetSet p pkg) g, None)
        | None => match disk workDir path with
                  | Some pkg => Some (m, mu, c, go (PGetStore p path pkg) g, None)
                  | None => Some (m, mu, c, go PIdle g, None)
                  end
        end
    | PGetStore p path pkg => Some (m, mu, minsert path pkg c, go (PGetSet p pkg) g, None)
    | PGetSet p pkg =>
        let n := node m p in
        Some (set_nth p (mkNode (n_parent n) (n_name n) (n_edges n) (Some pkg) (n_files n)) m, mu, c, go (PGetRange p) g, None)
    | PGetRange p =>
        match n_package (node m p) with
        | None => None
        | Some [] => Some (m, mu, c, go (PGetReturn p) g, None)
        | Some (imports :: files) => Some (m, mu, c, go (PGetImports p [] imports files) g, None)
        end
    | PGetImports p done [] files => Some (m, mu, c, go (PGetAppend p done files) g, None)
    | PGetImports p done (i :: imports) files =>
        let path := trim quote i in
        Some (m, mu, c, go (PFindLock path (COrAdd path (CImport p done imports files))) g, None)
    | PGetAppend p done files =>
        let n := node m p in
        Some (set_nth p (mkNode (n_parent n) (n_name n) (n_edges n) (n_package n) (n_files n ++ [done])%list) m, mu, c,
              go (match files with [] => PGetReturn p | imports :: files => PGetImports p [] imports files end) g, None)
    | PGetReturn p => Some (m, mu, c, go PIdle g, None)
    end.
  Definition tstep (t : nat) (s : process) : option (process * option happening) :=
    match nth_error (p_threads s) t with
    | None => None
    | Some g => match tick t g (p_mem s) (p_mu s) (p_cache s) with
                | None => None
                | Some (m, mu, c, g', h) => Some (mkProc m mu c (set_nth t g' (p_threads s)), h)
                end
    end.
End Steps.

(** A new manager, an empty cache, and goroutines that have done nothing yet. *)
Definition fresh (work : list (list request)) : process :=
  mkProc NewPackageManager None [] (map (fun l => mkG PIdle None l []) work).
