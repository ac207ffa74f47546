(** The Azure functions output: C46, C47. *)
From Coq Require Import List String Ascii Bool ZArith Arith.
From Verif Require Import BaseStr BaseMap M_Types M_Collect M_OpenAPI M_Parse M_Clean M_FS M_Service.
From Verif Require Import M_Paths S_Paths S_Example S_Service S_Cache S_Files S_Azure P_Paths P_FS P_Path P_Act P_Frame P_Azure.
Import ListNotations.
Local Open Scope string_scope.

(** The names of the later required path parameters are no beginnings of a constraint text. *)
Definition distinct_from_constraints (p : string) : Prop :=
  forall ps, seg_params (split "/" p) ps ->
  forall i m name, nth_error ps (S i) = Some (m, name) -> m = ":"%char -> clear_name name.

(** C46, for paths gin accepts: the route with the parameters of its path, and further parameters of types without a
    constraint (those of bound structs), is the path with each parameter in its braced form, segment by segment, and nothing else
    changed.  Missing: parameters after the first one whose name is the beginning of a constraint (refuted below). *)
Theorem C46_converted_partial :
  forall r extra segs',
    gin_path (rt_path r) -> rt_pathParams r = (ExtractParamsFromPath (rt_path r) ++ extra)%list ->
    (forall x, In x extra -> mlookup (f_type (p_field x)) acceptedTypeMap = None) ->
    distinct_from_constraints (rt_path r) ->
    seg_mapped azure_form (split "/" (rt_path r)) segs' ->
    convertRoute r = join "/" segs'.
Proof.
  intros r extra segs' G E X D M. destruct (extract_exact (rt_path r)) as (ps & P & EP).
  unfold convertRoute. rewrite E, fold_left_app, EP. rewrite convert_extra by now apply Forall_forall.
  rewrite <- (join_split "/" (rt_path r)) at 1.
  apply (convert_segments (split "/" (rt_path r)) ps segs' ""); auto.
  - apply split_no_char.
  - apply Forall_forall. intros mn _. apply safe_nil.
  - specialize (D ps P). unfold later_clear. apply Forall_forall. intros (m & name) I Hm. cbn in *.
    destruct ps as [|q ps]; [easy|]. cbn [tl] in I. apply In_nth_error in I as (i & I). exact (D i m name I Hm).
Qed.
Print Assumptions C46_converted_partial.

(** C46: each path has exactly one such form, so the theorem above fixes the result. *)
Theorem C46_form_exists :
  forall p, exists segs', seg_mapped azure_form (split "/" p) segs' /\ forall l, seg_mapped azure_form (split "/" p) l -> l = segs'.
Proof.
  intros p. generalize (split "/" p) as segs. induction segs as [|s segs (l & M & U)].
  { exists []. split; [constructor|]. intros l H. now inversion H. }
  destruct (segment_dec s) as [(lit & m & name & H)|H].
  - exists ((lit ++ azure_form (String m name)) :: l). split; [now constructor|]. intros l' H'. inversion H'; subst.
    + destruct (seg_has_fun _ _ _ _ _ _ _ H H2) as (-> & -> & ->). f_equal. auto.
    + exfalso. now apply (H2 lit m name).
  - exists (s :: l). split; [now constructor 3|]. intros l' H'. inversion H'; subst.
    + exfalso. now apply (H lit m name).
    + f_equal. auto.
Qed.
Print Assumptions C46_form_exists.

Definition azure_route (handler method path : string) : Route :=
  mkRoute handler "/home/main.go" 3%Z method path (ExtractParamsFromPath path) [] [] [] "" "" [] [].

(** C46, refuted: a second parameter whose name begins the constraint of the first is replaced inside that constraint, and its
    own place is left as it was. *)
Theorem C46_refuted :
  exists r segs',
    gin_path (rt_path r) /\ rt_pathParams r = ExtractParamsFromPath (rt_path r) /\
    seg_mapped azure_form (split "/" (rt_path r)) segs' /\ join "/" segs' = "/{x:alpha}/{a:alpha}" /\
    convertRoute r = "/{x{a:alpha}lpha}/:a".
Proof.
  exists (azure_route "main.f" "GET" "/:x/:a"), [""; "{x:alpha}"; "{a:alpha}"].
  split. { repeat constructor. }
  split; [reflexivity|]. split; [|split; vm_compute; reflexivity].
  cbn [azure_route rt_path]. change (split "/" "/:x/:a") with [""; ":x"; ":a"].
  assert (K : forall a, a <> "" -> has_char "/" a = false -> seg_has "" ":" a (String ":" a)).
  { intros a N _. repeat split; auto. now left. }
  constructor 3. { intros lit m name (H & _). destruct lit; discriminate. }
  refine (sm_param azure_form "" ":" "x" ":x" _ _ (K "x" _ eq_refl) _); [discriminate|].
  refine (sm_param azure_form "" ":" "a" ":a" _ _ (K "a" _ eq_refl) _); [discriminate|]. constructor.
Qed.
Print Assumptions C46_refuted.

(** The hypotheses of C46_converted_partial are met by a path with literals, a name that begins another, and a catch-all. *)
Example C46_nontrivial :
  let r := azure_route "main.f" "GET" "/v1/:id/x:idx/*rest" in
  gin_path (rt_path r) /\ distinct_from_constraints (rt_path r) /\
  seg_mapped azure_form (split "/" (rt_path r)) [""; "v1"; "{id:alpha}"; "x{idx:alpha}"; "{rest:alpha?}"] /\
  convertRoute r = "/v1/{id:alpha}/x{idx:alpha}/{rest:alpha?}".
Proof.
  cbn [azure_route rt_path]. set (p := "/v1/:id/x:idx/*rest").
  assert (E : split "/" p = [""; "v1"; ":id"; "x:idx"; "*rest"]) by reflexivity.
  assert (N1 : forall lit m name, ~ seg_has lit m name "").
  { intros lit m name (H & _). destruct lit; discriminate. }
  assert (N2 : forall lit m name, ~ seg_has lit m name "v1").
  { intros lit m name (H & [-> | ->] & _); destruct lit as [|? [|? [|? ?]]]; discriminate. }
  assert (S1 : seg_has "" ":" "id" ":id") by (repeat split; [now left|discriminate]).
  assert (S2 : seg_has "x" ":" "idx" "x:idx") by (repeat split; [now left|discriminate]).
  assert (S3 : seg_has "" "*" "rest" "*rest") by (repeat split; [now right|discriminate]).
  split. { unfold gin_path. rewrite E. repeat constructor. }
  split.
  { intros ps P i m name I Hm. rewrite E in P.
    assert (P' : seg_params [""; "v1"; ":id"; "x:idx"; "*rest"] [(":"%char, "id"); (":"%char, "idx"); ("*"%char, "rest")]).
    { constructor 3; auto. constructor 3; auto. econstructor; [exact S1|]. econstructor; [exact S2|]. econstructor; [exact S3|]. constructor. }
    rewrite (seg_params_fun _ _ _ P P') in I. destruct i as [|[|[|]]]; try discriminate; injection I as <- <-; [|discriminate].
    intros x H. discriminate. }
  split; [|vm_compute; reflexivity]. rewrite E. constructor 3; auto. constructor 3; auto.
  refine (sm_param azure_form _ _ _ _ _ _ S1 _). refine (sm_param azure_form _ _ _ _ _ _ S2 _).
  refine (sm_param azure_form _ _ _ _ _ _ S3 _). constructor.
Qed.

(** ** Function folders *)

(** C47: whatever the file system does, generation ends with an error, or below the output directory there are
    that directory, one folder for each route, and in it the one file with the route's methods and path: nothing else.  The folders
    are distinct and below the directory, the temporary one is gone, and the service is as before. *)
Theorem C47_functions :
  forall env dir s w,
    sv_workDir s <> "" ->
    (exists e s' w', generateAzure env dir s w = (Err e, s', w')) \/
    (exists w', generateAzure env dir s w = (Ok tt, s, w') /\
     (forall q k, kind_at (place (work_dir s w) dir ++ q) (w_fs w') = Some k <-> expected (sv_routes s) q k) /\
     NoDup (map folder (sv_routes s)) /\ Forall (fun r => folder r <> []) (sv_routes s) /\
     (forall q, inside (work_dir s w ++ [".astra"; "azure"]) q -> kind_at q (w_fs w') = None)).
Proof.
  intros env dir s w WD. assert (A := a_generateAzure env dir s w).
  destruct (generateAzure env dir s w) as [[[[]|e| |] s'] w'] eqn:E; cbn in A; try easy.
  - right. destruct (generateAzure_ok _ _ _ _ _ _ WD E) as (-> & H). exists w'. split; auto.
  - left. eauto.
Qed.
Print Assumptions C47_functions.

(** C47: two routes with the same handler name, or one without any, are reported. *)
Theorem C47_clash_reported :
  forall env dir s w,
    sv_workDir s <> "" -> ~ NoDup (map folder (sv_routes s)) \/ (exists r, In r (sv_routes s) /\ folder r = []) ->
    exists e s' w', generateAzure env dir s w = (Err e, s', w').
Proof.
  intros env dir s w WD H. destruct (C47_functions env dir s w WD) as [X|(w' & _ & _ & D & F & _)]; auto.
  exfalso. destruct H as [H|(r & I & Z)]; auto. rewrite Forall_forall in F. exact (F r I Z).
Qed.
Print Assumptions C47_clash_reported.

(** C47: it does succeed when calls do, the working and the astra directory are there, no temporary output is left over,
    the directory is a plain name other than .astra, and handler names are distinct. *)
Theorem C47_succeeds :
  forall env dir s w,
    (forall n, e_fault env n = None) -> plain_name dir -> dir <> ".astra" -> sv_workDir s <> "" ->
    kind_at (work_dir s w) (w_fs w) = Some KDir ->
    kind_at (work_dir s w ++ [".astra"]) (w_fs w) = Some KDir ->
    kind_at (work_dir s w ++ [".astra"; "azure"]) (w_fs w) = None ->
    (forall r, In r (sv_routes s) -> exists x, folder r = [x]) -> NoDup (map folder (sv_routes s)) ->
    exists w', generateAzure env dir s w = (Ok tt, s, w').
Proof.
  intros env dir s w NF PL NA WD KB KS KA F D. apply generateAzure_works; auto. now apply Forall_forall.
Qed.
Print Assumptions C47_succeeds.

(** C47, such a clash without any failing call: the same handler at two paths, which gin allows, cannot be generated at all. *)
Theorem C47_shared_handler :
  exists env dir s w,
    (forall n, e_fault env n = None) /\ sv_workDir s <> "" /\ plain_name dir /\
    kind_at (work_dir s w) (w_fs w) = Some KDir /\ kind_at (work_dir s w ++ [".astra"]) (w_fs w) = Some KDir /\
    kind_at (work_dir s w ++ [".astra"; "azure"]) (w_fs w) = None /\
    map rt_path (sv_routes s) = ["/a"; "/b"] /\
    exists e s' w', generateAzure env dir s w = (Err e, s', w').
Proof.
  pose (s := with_results [azure_route "main.f" "GET" "/a"; azure_route "main.f" "GET" "/b"] [] (WithCustomWorkDir "/home" (New []))).
  pose (w := mkWorld (Dir [("home", Dir [(".astra", Dir [])])]) ["home"] [] 0 [] []).
  exists (ex_env no_fault), "functions", s, w.
  split; [reflexivity|]. split; [discriminate|]. split; [repeat split; discriminate|].
  split; [reflexivity|]. split; [reflexivity|]. split; [reflexivity|]. split; [reflexivity|].
  apply C47_clash_reported; [discriminate|]. left. intros D. inversion D as [|? ? N _]; subst. apply N. now left.
Qed.
Print Assumptions C47_shared_handler.

(** A run of C47_functions and C47_succeeds with two routes. *)
Example C47_nontrivial :
  let s := with_results [azure_route "example.com/app.f" "GET" "/a/:id"; azure_route "example.com/app.g" "POST" "/b"] []
             (WithCustomWorkDir "/home" (New [])) in
  let w := mkWorld (Dir [("home", Dir [(".astra", Dir []); ("functions", Dir [("old", Dir [])])])]) ["home"] [] 0 [] [] in
  plain_name "functions" /\ kind_at (work_dir s w ++ [".astra"; "azure"]) (w_fs w) = None /\
  map folder (sv_routes s) = [["f"]; ["g"]] /\
  let '(r, _, w') := generateAzure (ex_env no_fault) "functions" s w in
  r = Ok tt /\ kind_at ["home"; "functions"; "old"] (w_fs w') = None /\
  kind_at ["home"; "functions"; "f"; "function.json"] (w_fs w') = Some (KFile (CFunction ["get"; "options"] "/a/{id:alpha}")) /\
  kind_at ["home"; "functions"; "g"; "function.json"] (w_fs w') = Some (KFile (CFunction ["post"; "options"] "/b")).
Proof. split; [repeat split; discriminate|]. split; [reflexivity|]. split; [reflexivity|]. vm_compute. repeat split. Qed.
