(** Handler names, route creation and the accumulating lists:
    utils/splitHandlerPath.go, inputs/gin/createRoute.go, inputs/gin/createRoutes.go,
    listing.go, routes.go, safePushing.go. *)
From Coq Require Import List String Ascii Bool ZArith Arith.
From Verif Require Import BaseStr M_Types.
Import ListNotations.
Local Open Scope string_scope.

(** ** utils/splitHandlerPath.go *)

(** utils/splitHandlerPath.go:5-8 *)
Record HandlerPath := mkHP { hp_pathParts : list string; hp_handlerParts : list string }.

(** utils/splitHandlerPath.go:10-28. Both [split]s are non-empty, so pathParts[len-1],
    handlerParts[0] and handlerParts[1:] never panic: [last], [hd] and [tl] never use their
    default. *)
Definition SplitHandlerPath (handlerPath : string) : HandlerPath :=
  let pathParts := split "/" handlerPath in
  let handlerParts := split "." (last pathParts "") in
  mkHP (removelast pathParts ++ [hd "" handlerParts])%list (tl handlerParts).

(** utils/splitHandlerPath.go:30-32 *)
Definition PackagePath (h : HandlerPath) : string := join "/" (hp_pathParts h).
(** utils/splitHandlerPath.go:34-36 *)
Definition PackageName (h : HandlerPath) : outcome string :=
  match hp_pathParts h with [] => Panic | l => Ok (last l "") end.
(** utils/splitHandlerPath.go:38-40 *)
Definition Handler (h : HandlerPath) : string := join "." (hp_handlerParts h).
(** utils/splitHandlerPath.go:42-44: index out of range when there is no handler part. *)
Definition FuncName (h : HandlerPath) : outcome string :=
  match hp_handlerParts h with [] => Panic | f :: _ => Ok f end.

(** ** gin route creation *)

(** gin.RouteInfo (Method, Path, Handler) and the file and line the runtime reports for the
    handler (inputs/gin/createRoutes.go:34-35). *)
Record GinRoute := mkGin {
  gi_method : string; gi_path : string; gi_handler : string; gi_file : string; gi_line : Z }.

(** inputs/gin/createRoute.go:30-40: the route added for a router entry. *)
Definition newRoute (info : GinRoute) (relativePath : string) : Route :=
  mkRoute (gi_handler info) relativePath (gi_line info) (gi_method info) (gi_path info)
          [] [] [] [] "" "" [] [].

(** routes.go:4-6 *)
Definition AddRoute (route : Route) (routes : list Route) : list Route := (routes ++ [route])%list.

(** inputs/gin/createRoute.go:15-47.  [rel] stands for os.Getwd followed by
    filepath.Rel(cwd, file): [None] if either fails. *)
Definition createRoute (rel : string -> option string) (info : GinRoute) (routes : list Route)
  : outcome (list Route) :=
  match rel (gi_file info) with
  | None => Err "relative path"
  | Some r => Ok (AddRoute (newRoute info r) routes)
  end.

(** inputs/gin/createRoutes.go:22-29: the loop over PathDenyList. *)
Fixpoint denied (denyList : list (string -> bool)) (path : string) : bool :=
  match denyList with
  | [] => false
  | d :: ds => if d path then true else denied ds path
  end.

(** inputs/gin/createRoutes.go:16-50.  The service's routes afterwards, and the error. *)
Fixpoint CreateRoutes (rel : string -> option string) (denyList : list (string -> bool))
  (infos : list GinRoute) (routes : list Route) : list Route * option string :=
  match infos with
  | [] => (routes, None)
  | info :: rest =>
      if denied denyList (gi_path info) then CreateRoutes rel denyList rest routes
      else match createRoute rel info routes with
           | Ok routes' => CreateRoutes rel denyList rest routes'
           | Err e => (routes, Some e)
           | _ => (routes, Some "unreachable")
           end
  end.

(** listing.go:5-25: the three ways to add a deny function.  A regular expression is any
    predicate on strings. *)
Definition deny_exact (denyList : string) : string -> bool := fun path => String.eqb path denyList.

(** routes.go:9-16 *)
Fixpoint ReplaceRoute (route : Route) (routes : list Route) : list Route :=
  match routes with
  | [] => []
  | r :: rest =>
      if String.eqb (rt_path r) (rt_path route) && String.eqb (rt_method r) (rt_method route)
      then route :: rest
      else r :: ReplaceRoute route rest
  end.

(** ** safePushing.go *)

(** safePushing.go:11: the condition "differs". *)
Definition ret_differs (newReturn existing : ReturnType) : bool :=
  negb (String.eqb (f_type (r_field newReturn)) (f_type (r_field existing)))
  || negb (String.eqb (f_package (r_field newReturn)) (f_package (r_field existing)))
  || negb (Z.eqb (r_status newReturn) (r_status existing))
  || negb (String.eqb (r_contentType newReturn) (r_contentType existing)).

(** safePushing.go:6-17, one iteration of the outer loop.  The inner loop ranges over the
    slice as it was before the append and breaks after the first append. *)
Definition addReturn1 (prev : list ReturnType) (newReturn : ReturnType) : list ReturnType :=
  match prev with
  | [] => [newReturn]
  | _ => if existsb (ret_differs newReturn) prev then (prev ++ [newReturn])%list else prev
  end.

(** safePushing.go:5-20 *)
Definition AddReturnType (prev n : list ReturnType) : list ReturnType := fold_left addReturn1 n prev.

(** safePushing.go:31 *)
Definition comp_same (a b : Field) : bool :=
  String.eqb (f_name a) (f_name b) && String.eqb (f_package a) (f_package b).

(** safePushing.go:25-39 *)
Definition addComponent1 (prev : list Field) (newComponent : Field) : list Field :=
  match prev with
  | [] => [newComponent]
  | _ => if existsb (comp_same newComponent) prev then prev else (prev ++ [newComponent])%list
  end.

(** safePushing.go:24-43 *)
Definition AddComponent (prev n : list Field) : list Field := fold_left addComponent1 n prev.
