(** What the package tree should do. *)
From Coq Require Import List String Ascii Bool Arith.
From Verif Require Import BaseStr BaseMap M_Types M_Packages.
Import ListNotations.
Local Open Scope string_scope.

(** The path is this one, or that of a directory above it. *)
Definition at_or_above (p a : string) : Prop := a = p \/ exists r, a = p ++ "/" ++ r.

(** The paths a call adds: for a package that is loaded, those its files import. *)
Definition imported (pkg : package) : list string := map (trim quote) (List.concat pkg).

(** One call of the package manager, with the paths it is to add; what is in the process-wide cache is arbitrary. *)
Inductive called (m : manager) : list string -> manager -> Prop :=
| called_add p m' q : AddPackage m p = (m', q) -> called m [p] m'
| called_find_or_add p m' q : FindOrAdd m p = (m', q) -> called m [p] m'
| called_get loaders disk fuel workDir cache p m' cache' pkg :
    p < List.length m ->
    Get loaders disk fuel workDir m cache p = Ok (m', cache', pkg) ->
    called m (match n_package (node m p) with Some _ => [] | None => imported pkg end) m'.

(** Any number of calls. *)
Inductive later (m : manager) : list string -> manager -> Prop :=
| later_now : later m [] m
| later_call l m1 a m2 : later m l m1 -> called m1 a m2 -> later m (l ++ a) m2.

(** Paths without a slash at the end. *)
Definition no_final_slash (p : string) : Prop := forall q, p <> q ++ "/".

(** Loaders, tried in their order: the first that knows the path says which one is loaded; the path itself if none does. *)
Inductive resolves (path : string) : list (string -> option string) -> string -> Prop :=
| resolves_none : resolves path [] path
| resolves_first l r path' : l path = Some path' -> resolves path (l :: r) path'
| resolves_next l r path' : l path = None -> resolves path r path' -> resolves path (l :: r) path'.

(** The import of a path, as it is written. *)
Definition written (path : string) : string := str1 (ascii_of_nat 34) ++ path ++ str1 (ascii_of_nat 34).
