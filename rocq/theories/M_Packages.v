(** The package tree: astTraversal/packageManager.go and packageNode.go:24-42. *)
From Coq Require Import List String Ascii Bool Arith.
From Verif Require Import BaseStr BaseMap M_Types M_Parse.
Import ListNotations.
Local Open Scope string_scope.

(** A loaded package: of each of its files, the paths of the imports as written, between quotes
    (the syntax and types of a package are not part of this model). *)
Definition package := list (list string).

(** packageNode.go:12-22.  A pointer to a node is its index in memory. *)
Record PackageNode := mkNode {
  n_parent : option nat; n_name : string; n_edges : list nat;
  n_package : option package; n_files : list (list nat) }.

(** packageManager.go:13-18.  The root is node 0; the lock is not modelled: calls do not overlap. *)
Definition manager := list PackageNode.
(** packageManager.go:20-27 *)
Definition NewPackageManager : manager := [mkNode None "" [] None []].
(** The node at a pointer. *)
Definition node (m : manager) (p : nat) : PackageNode := nth p m (mkNode None "" [] None []).

(** packageManager.go:42-48 and 103-109: the first edge with the name. *)
Definition edge (m : manager) (p : nat) (step : string) : option nat :=
  find (fun q => String.eqb (n_name (node m q)) step) (n_edges (node m p)).

(** packageManager.go:50-59: a new node at the end of the edges. *)
Definition newEdge (m : manager) (p : nat) (step : string) : manager :=
  let n := node m p in
  (set_nth p (mkNode (n_parent n) (n_name n) (n_edges n ++ [List.length m])%list (n_package n) (n_files n)) m
   ++ [mkNode (Some p) step [] None []])%list.

(** packageManager.go:39-63 *)
Fixpoint addSteps (m : manager) (p : nat) (steps : list string) : manager * nat :=
  match steps with
  | [] => (m, p)
  | step :: rest =>
      match edge m p step with
      | Some q => addSteps m q rest
      | None => addSteps (newEdge m p step) (List.length m) rest
      end
  end.
(** packageManager.go:33-63 *)
Definition AddPackage (m : manager) (pkgPath : string) : manager * nat := addSteps m 0 (split "/" pkgPath).

(** packageManager.go:101-114 *)
Fixpoint findSteps (m : manager) (p : nat) (steps : list string) : option nat :=
  match steps with
  | [] => Some p
  | step :: rest => match edge m p step with Some q => findSteps m q rest | None => None end
  end.
(** packageManager.go:95-121.  The path split has at least one element; the root is never the last. *)
Definition Find (m : manager) (path : string) : option nat :=
  match findSteps m 0 (split "/" path) with
  | Some p => if Nat.eqb p 0 then None else Some p
  | None => None
  end.
(** packageManager.go:123-130 *)
Definition FindOrAdd (m : manager) (path : string) : manager * nat :=
  match Find m path with Some p => (m, p) | None => AddPackage m path end.

(** packageNode.go:24-42: up the parents, for as long as there are any. *)
Fixpoint pathUp (fuel : nat) (m : manager) (p : nat) (path : string) : outcome string :=
  match fuel with
  | O => OutOfFuel
  | S fuel =>
      match n_parent (node m p) with
      | None => Ok path
      | Some q => pathUp fuel m q (if String.eqb path "" then n_name (node m p) else n_name (node m p) ++ "/" ++ path)
      end
  end.
(** packageNode.go:24-42. *)
Definition Path (fuel : nat) (m : manager) (p : nat) : outcome string := pathUp fuel m p "".

(** strings.Trim with a cutset of the double quote. *)
Fixpoint trim_left (c : ascii) (s : string) : string :=
  match s with String d r => if Ascii.eqb d c then trim_left c r else s | EmptyString => "" end.
(** A string reversed. *)
Fixpoint srev (s acc : string) : string := match s with String c r => srev r (String c acc) | EmptyString => acc end.
(** strings.Trim with one character. *)
Definition trim (c : ascii) (s : string) : string := srev (trim_left c (srev (trim_left c s) "")) "".
(** The double quote. *)
Definition quote : ascii := ascii_of_nat 34.

(** packageManager.go:132-147, without the local names. *)
Fixpoint MapImportSpecs (m : manager) (imports : list string) : manager * list nat :=
  match imports with
  | [] => (m, [])
  | i :: rest => let (m1, p) := FindOrAdd m (trim quote i) in
                 let (m2, l) := MapImportSpecs m1 rest in (m2, p :: l)
  end.

(** astTraversal/loadPackage.go:9: what has been loaded in this process, by path only. *)
Definition cachedPackages := list (string * package).

Section Loading.
  (** packageManager.go:11: a loader may know another path.  [disk d p] is LoadPackageNoCache in the working directory [d]
      (loadPackage.go:30-68), nothing on an error. *)
  Context (loaders : list (string -> option string)) (disk : string -> string -> option package).

  (** loadPackage.go:13-26 *)
  Definition LoadPackage (pkgPath workDir : string) (cache : cachedPackages) : option (package * cachedPackages) :=
    match mlookup pkgPath cache with
    | Some pkg => Some (pkg, cache)
    | None => match disk workDir pkgPath with
              | Some pkg => Some (pkg, minsert pkgPath pkg cache)
              | None => None
              end
    end.

  (** packageManager.go:68-74: the first loader that answers. *)
  Fixpoint loadedPath (ls : list (string -> option string)) (path : string) : string :=
    match ls with
    | [] => path
    | l :: r => match l path with Some path' => path' | None => loadedPath r path end
    end.

  (** packageManager.go:82-89 *)
  Fixpoint addFiles (m : manager) (p : nat) (files : list (list string)) : manager :=
    match files with
    | [] => m
    | f :: rest =>
        let (m1, imports) := MapImportSpecs m f in
        let n := node m1 p in
        addFiles (set_nth p (mkNode (n_parent n) (n_name n) (n_edges n) (n_package n) (n_files n ++ [imports])%list) m1) p rest
    end.

  (** packageManager.go:65-93 *)
  Definition Get (fuel : nat) (workDir : string) (m : manager) (cache : cachedPackages) (p : nat)
    : outcome (manager * cachedPackages * package) :=
    match n_package (node m p) with
    | Some pkg => Ok (m, cache, pkg)
    | None =>
        path <- Path fuel m p ;;
        match LoadPackage (loadedPath loaders path) workDir cache with
        | None => Err "load"
        | Some (pkg, cache') =>
            let n := node m p in
            Ok (addFiles (set_nth p (mkNode (n_parent n) (n_name n) (n_edges n) (Some pkg) (n_files n)) m) p pkg, cache', pkg)
        end
    end.
End Loading.
