(** C01-C04: path parameters. *)
From Coq Require Import List String Ascii Bool.
From Verif Require Import BaseStr M_Types M_Paths S_Paths P_Paths.
Import ListNotations.
Local Open Scope string_scope.

(** C01: the recorded path parameters are exactly the parameters of the segments, in order. *)
Theorem C01_path_params_exact : forall path,
  exists ps, seg_params (split "/" path) ps /\
             (forall ps', seg_params (split "/" path) ps' -> ps' = ps) /\
             ExtractParamsFromPath path = map spec_param ps.
Proof.
  intros path. destruct (extract_exact path) as (ps & H & E). exists ps.
  split; [exact H|]. split; [|exact E]. intros ps' H'. exact (seg_params_fun _ _ _ H' H).
Qed.
Print Assumptions C01_path_params_exact.

Example C01_nontrivial :
  ExtractParamsFromPath "/users/:id/files:v/*rest:x/:" =
  map spec_param [(":"%char, "id"); (":"%char, "v"); ("*"%char, "rest:x")].
Proof. reflexivity. Qed.

(** C02: rewriting replaces exactly those pieces, for every rewriting function. *)
Theorem C02_rewrite_exact : forall path f,
  exists segs', seg_mapped f (split "/" path) segs' /\ MapPathParams path f = join "/" segs'.
Proof. intros path f. exact (map_exact f path). Qed.
Print Assumptions C02_rewrite_exact.

Theorem C02_rewrite_identity : forall path, MapPathParams path (fun piece => piece) = path.
Proof. exact map_identity. Qed.
Print Assumptions C02_rewrite_identity.

Example C02_nontrivial :
  MapPathParams "/a:b/c/*d" (fun m => "<" ++ m ++ ">") = "/a<:b>/c/<*d>".
Proof. reflexivity. Qed.

(** C03: different gin paths are documented under different paths. *)
Theorem C03_documented_paths_distinct : forall p q,
  gin_path p -> gin_path q -> openapi_path p = openapi_path q -> p = q.
Proof. exact openapi_path_inj. Qed.
Print Assumptions C03_documented_paths_distinct.

Example C03_nontrivial :
  gin_path "/users/:id/f*rest" /\ openapi_path "/users/:id/f*rest" = "/users/{id}/f{rest*}".
Proof. split; [repeat constructor|reflexivity]. Qed.

(** Outside gin's path language the conversion does merge paths. *)
Theorem C03_not_injective_outside_gin :
  exists p q, p <> q /\ openapi_path p = openapi_path q.
Proof. exists "/*a", "/:a*". split; [discriminate|reflexivity]. Qed.
Print Assumptions C03_not_injective_outside_gin.

(** C04, full claim: for every gin path the template expressions are the declared, required
    parameters.  It fails for catch-all parameters ... *)
Theorem C04_templates_declared_refuted :
  exists p, gin_path p /\ ~ templates_declared (openapi_path p) (ExtractParamsFromPath p).
Proof.
  exists "/files/*path". split; [repeat constructor|].
  intros [H _]. discriminate H.
Qed.
Print Assumptions C04_templates_declared_refuted.

(** ... and holds exactly for the paths all of whose parameters are required, in particular
    for the paths without '*'.  Missing: catch-all parameters. *)
Theorem C04_templates_declared_partial : forall p,
  gin_path p ->
  (templates_declared (openapi_path p) (ExtractParamsFromPath p) <->
   forall q, In q (ExtractParamsFromPath p) -> p_isRequired q = true).
Proof. exact declared_iff. Qed.
Print Assumptions C04_templates_declared_partial.

Theorem C04_colon_paths_declared_partial : forall p,
  gin_path p -> has_char "*" p = false ->
  templates_declared (openapi_path p) (ExtractParamsFromPath p).
Proof.
  intros p G H. apply (declared_iff p G). exact (colon_path_required p H).
Qed.
Print Assumptions C04_colon_paths_declared_partial.

Example C04_nontrivial :
  gin_path "/users/:id/pets/:pet" /\
  templates (openapi_path "/users/:id/pets/:pet") = ["id"; "pet"].
Proof. split; [repeat constructor|reflexivity]. Qed.
