(** clean.go and substituteTypes.go: what Clean does to the components and the routes. *)
From Coq Require Import List String Ascii Bool ZArith.
From Verif Require Import BaseStr BaseMap M_Types.
Import ListNotations.
Local Open Scope string_scope.

(** substituteTypes.go:6-9 *)
Definition substituteTypes : list (string * string) := [("time.Duration", "int"); ("error", "string")].

(** substituteTypes.go:13-18: the substitute for a field with this package and name, if any. *)
Definition substituteFor (pkg name : string) : option string :=
  let qualifiedName := if negb (String.eqb pkg "") then pkg ++ "." ++ name else name in
  mlookup qualifiedName substituteTypes.

(** clean.go:50-55, one of the two assignments. *)
Definition cleanPackage (mainPkg pkg : string) : string :=
  if String.eqb pkg mainPkg then "main" else pkg.

(** clean.go:47-62 with HandleSubstituteTypes (substituteTypes.go:12-27) inlined: its pointer is to
    the local copy.  The map of struct fields is updated in place; only copies of the same field
    share it, and for these a second cleaning changes nothing (C35_idempotent).  Only values at
    existing keys are assigned, so the order of the iteration does not matter. *)
Fixpoint cleanField (mainPkg : string) (f : Field) : Field :=
  match f with
  | mkField pkg typ name enum req emb sliceT arrayT arrayL mkp mkt mv sf bt vt doc =>
      match substituteFor pkg name with
      | Some t =>
          mkField (cleanPackage mainPkg pkg) t name enum req emb "" arrayT arrayL
                  (cleanPackage mainPkg mkp) mkt "" [] bt vt doc
      | None =>
          mkField (cleanPackage mainPkg pkg) typ name enum req emb sliceT arrayT arrayL
                  (cleanPackage mainPkg mkp) mkt mv
                  (map (fun kf => (fst kf, cleanField mainPkg (snd kf))) sf) bt vt doc
      end
  end.

(** clean.go:24, 27 *)
Definition cleanParam (mainPkg : string) (p : Param) : Param :=
  mkParam (p_name p) (cleanField mainPkg (p_field p)) (p_isRequired p) (p_isArray p) (p_isMap p) (p_isBound p).

(** clean.go:30 *)
Definition cleanBody (mainPkg : string) (b : BodyParam) : BodyParam :=
  mkBody (b_name b) (cleanField mainPkg (b_field b)) (b_contentType b) (b_isRequired b) (b_isArray b)
         (b_isMap b) (b_isBound b).

(** clean.go:21 *)
Definition cleanReturn (mainPkg : string) (r : ReturnType) : ReturnType :=
  mkRet (r_status r) (r_contentType r) (cleanField mainPkg (r_field r)).

(** clean.go:19-32: one route. *)
Definition cleanRoute (mainPkg : string) (r : Route) : Route :=
  mkRoute (rt_handler r) (rt_file r) (rt_line r) (rt_method r) (rt_path r)
    (map (cleanParam mainPkg) (rt_pathParams r)) (map (cleanParam mainPkg) (rt_queryParams r))
    (map (cleanBody mainPkg) (rt_body r)) (map (cleanReturn mainPkg) (rt_returns r))
    (rt_doc r) (rt_operationId r) (rt_reqHeaders r) (rt_respHeaders r).

(** clean.go:15-32 *)
Definition cleanComponents (mainPkg : string) (l : list Field) : list Field := map (cleanField mainPkg) l.
(** clean.go:15-33: the loop over the routes. *)
Definition cleanRoutes (mainPkg : string) (l : list Route) : list Route := map (cleanRoute mainPkg) l.
