(** Generating again on the same service: C48. *)
From Coq Require Import List String Ascii Bool ZArith Arith Lia.
From Verif Require Import BaseStr BaseMap M_Types M_Collect M_OpenAPI M_Parse M_Clean M_FS M_Service.
From Verif Require Import S_Collect S_Names S_OpenAPI S_Example S_Service S_Cache S_Files S_Azure S_Again.
From Verif Require Import P_FS P_Path P_Parse P_Names P_Schema P_Act P_Frame P_Load P_Azure P_Again Props_Names Props_OpenAPI.
Import ListNotations.
Local Open Scope string_scope.

Lemma trail_place s w e k : sv_workDir s <> "" -> locate (w_cwd w) (trail (sv_workDir s) e k) = written_place s w e k.
Proof.
  intros W. unfold written_place. destruct (is_rooted (sv_workDir s)) eqn:R; [now apply trail_rooted|now apply trail_unrooted].
Qed.

(** C48, JSON: each of any number of successful calls writes the same results, and all that changes in the service is the
    path.  Where to is [written_place], which is not always the same place (below). *)
Theorem C48_json :
  forall P n k s w s' w' o x,
    sv_workDir s <> "" -> nth_error (sv_outputs s) n = Some o -> out_generate o = GeJSON x -> again P n (S k) s w s' w' ->
    kind_at (written_place s w (with_extension json_endings x) k) (w_fs w') = Some (KFile (CResults (sv_routes s) (sv_components s))) /\
    (forall m, m <> n -> nth_error (sv_outputs s') m = nth_error (sv_outputs s) m) /\
    with_outputs (sv_outputs s) s' = s.
Proof.
  intros P n k s w s' w' o x W N O A. destruct (json_again P n k s w s' w' o x W N O A) as (-> & _ & K).
  rewrite trail_place in K by auto. split; auto. split.
  - intros m M. cbn [with_outputs with_io sv_outputs]. apply nth_set_other. auto.
  - now destruct s.
Qed.
Print Assumptions C48_json.

(** C48, OpenAPI: the document of the first call is what all further calls write, in the same format, even if the orders in
    which maps are gone through differ from call to call.  The conditions on the components are those of C19, under which
    the first document does not depend on the orders either. *)
Theorem C48_openapi_partial :
  forall (P : Env -> Prop) n k s w s1 w1 s' w' o x d,
    sv_workDir s <> "" -> nth_error (sv_outputs s) n = Some o -> out_generate o = GeOpenAPI x ->
    (forall env env', P env -> P env' ->
       valid_orders (e_orders env) /\ forall s l, o_sort (e_orders env) s l = o_sort (e_orders env') s l) ->
    parsed_components (sv_components s) -> unambiguous (sv_components s) -> NoDup (map comp_key (sv_components s)) ->
    msorted (w_names w) -> (forall c, In c (sv_components s) -> order_safe c) ->
    let e := with_extension openapi_endings x in
    again P n 1 s w s1 w1 -> kind_at (place (work_dir s w) e) (w_fs w1) = Some (KFile (CDocument (is_yaml e) d)) ->
    (forall r op, In r (sv_routes s) -> documents d r op ->
       Forall unbound (rt_queryParams r) \/ NoDup (map pa_name (op_parameters op))) ->
    again P n (S k) s w s' w' ->
    kind_at (written_place s w e k) (w_fs w') = Some (KFile (CDocument (is_yaml e) d)).
Proof.
  intros P n k s w s1 w1 s' w' o x d W N O HP Hp Hu HN Hm Hs e A1 K1 Hop A. rewrite <- trail_place by auto.
  refine (proj2 (proj2 (proj2 (openapi_again P n k s w s1 w1 s' w' o x W N O HP Hp Hu HN Hm Hs d A1 _ Hop A)))).
  cbn [trail]. rewrite locate_join by auto. rewrite place_under in K1. exact K1.
Qed.
Print Assumptions C48_openapi_partial.

(** That there is a document at that place after the first call. *)
Theorem C48_openapi_first :
  forall P n s w s1 w1 o x,
    sv_workDir s <> "" -> nth_error (sv_outputs s) n = Some o -> out_generate o = GeOpenAPI x -> again P n 1 s w s1 w1 ->
    let e := with_extension openapi_endings x in
    exists d, kind_at (place (work_dir s w) e) (w_fs w1) = Some (KFile (CDocument (is_yaml e) d)).
Proof.
  intros P n s w s1 w1 o x W N O A e. inversion A as [|? ? ? s0 w0 env o1 ? ? A0 PE N1 E]; subst. inversion A0; subst.
  rewrite N in N1. injection N1 as <-. destruct (openapi_step env n o x _ _ _ _ O E) as (d & c & names & _ & _ & _ & _ & K).
  rewrite locate_join in K by auto. exists d. rewrite place_under. exact K.
Qed.
Print Assumptions C48_openapi_first.

(** C48, Azure: after any number of calls the function folders are those of the routes, at the same place. *)
Theorem C48_azure :
  forall P n k s w s' w' o d,
    sv_workDir s <> "" -> nth_error (sv_outputs s) n = Some o -> out_generate o = GeAzure d -> again P n (S k) s w s' w' ->
    s' = s /\ forall q c, kind_at (place (work_dir s w) d ++ q) (w_fs w') = Some c <-> expected (sv_routes s) q c.
Proof. intros P n k s w s' w' o d W N O A. destruct (azure_again P n k s w s' w' o d W N O A) as (-> & _ & B). auto. Qed.
Print Assumptions C48_azure.

(** Where it is the same file: the working directory is given as the current one, like a dot. *)
Theorem C48_same_place_partial :
  forall s w e k, is_rooted (sv_workDir s) = false -> work_dir s w = w_cwd w -> written_place s w e k = place (w_cwd w) e.
Proof.
  intros s w e k R H. unfold written_place. rewrite R. f_equal. unfold work_dir in H.
  assert (F : forall k, follow k (sv_workDir s) (w_cwd w) = w_cwd w) by (clear k; induction k as [|k IH]; cbn [follow]; auto; now rewrite H).
  apply F.
Qed.
Print Assumptions C48_same_place_partial.

(** Where it never is: a working directory given from the root on, other than the root, as it is by default. *)
Theorem C48_moves :
  forall s w e k k', is_rooted (sv_workDir s) = true -> work_dir s w <> [] -> k <> k' -> written_place s w e k <> written_place s w e k'.
Proof.
  intros s w e k k' R H K E. unfold written_place in E. rewrite R in E. apply (f_equal (@List.length _)) in E.
  rewrite !app_length, !times_length in E. destruct (work_dir s w) as [|a l]; [congruence|]. cbn [List.length] in E. nia.
Qed.
Print Assumptions C48_moves.

(** Refuted as stated: in the default working directory /home the first run writes /home/out.json; generating again fails
    if there is no /home/home and writes /home/home/out.json if there is one. *)
Definition C48_world : World :=
  mkWorld (Dir [("home", Dir [("go.mod", File (CBytes ("module example.com/app" ++ nl)));
                              ("home", Dir []); ("main.go", File (CBytes ("package main" ++ nl)))])]) ["home"] [] 0 [] [].
Definition C48_service : Service := New [WithGinInput (Some ex_router); WithJSONOutput "out"].
Theorem C48_refuted :
  (exists s1 w1 e s2 w2,
     Parse (ex_env no_fault) C48_service ex_world = (Ok tt, s1, w1) /\
     Generate (ex_env no_fault) s1 w1 = (Err e, s2, w2)) /\
  (exists s1 w1 s2 w2 c,
     Parse (ex_env no_fault) C48_service C48_world = (Ok tt, s1, w1) /\
     Generate (ex_env no_fault) s1 w1 = (Ok tt, s2, w2) /\
     kind_at ["home"; "home"; "out.json"] (w_fs w1) = None /\ kind_at ["home"; "home"; "out.json"] (w_fs w2) = Some (KFile c)).
Proof.
  split.
  - pose (X := Parse (ex_env no_fault) C48_service ex_world).
    pose (Y := Generate (ex_env no_fault) (snd (fst X)) (snd X)).
    pose (er := match fst (fst Y) with Err e => e | _ => "" end).
    exists (snd (fst X)), (snd X), er, (snd (fst Y)), (snd Y). split; vm_compute; reflexivity.
  - pose (X := Parse (ex_env no_fault) C48_service C48_world).
    pose (Y := Generate (ex_env no_fault) (snd (fst X)) (snd X)).
    exists (snd (fst X)), (snd X), (snd (fst Y)), (snd Y), (CResults (sv_routes (snd (fst X))) (sv_components (snd (fst X)))).
    split; [vm_compute; reflexivity|]. split; [vm_compute; reflexivity|]. split; vm_compute; reflexivity.
Qed.
Print Assumptions C48_refuted.

(** Three calls in a working directory given as a dot, for both kinds of files. *)
Fixpoint ex_calls (n k : nat) (s : Service) (w : World) : bool * Service * World :=
  match k with
  | O => (true, s, w)
  | S k =>
      let '(ok, s1, w1) := ex_calls n k s w in
      match nth_error (sv_outputs s1) n with
      | Some o =>
          let '(r, s2, w2) := runGenerate (ex_env no_fault) n o s1 w1 in
          (ok && match r with Ok tt => true | _ => false end, s2, w2)
      | None => (false, s1, w1)
      end
  end.
Lemma ex_calls_again n k s w :
  fst (fst (ex_calls n k s w)) = true ->
  exists s' w', again (fun env => env = ex_env no_fault) n k s w s' w'.
Proof.
  intros H. exists (snd (fst (ex_calls n k s w))), (snd (ex_calls n k s w)). induction k as [|k IH]; [constructor|].
  cbn [ex_calls] in *. destruct (ex_calls n k s w) as [[ok s1] w1]. destruct (nth_error (sv_outputs s1) n) as [o|] eqn:N; [|discriminate].
  destruct (runGenerate (ex_env no_fault) n o s1 w1) as [[r s2] w2] eqn:E. cbn [fst snd] in *. apply andb_true_iff in H as (-> & H).
  destruct r as [[]| | |]; try discriminate. eapply again_more; [apply IH; reflexivity|reflexivity|exact N|exact E].
Qed.
Definition C48_dot : Service :=
  with_config (Some (mkConfig "t" "" "1" ("", "", "") ("", "") false "h" "/" 80))
    (with_workDir "." (New [WithGinInput (Some ex_router); WithJSONOutput "out"; WithOpenAPIOutput "api.yaml"; WithAzureFunctionsOutput "fns"])).
Definition C48_world' : World := mkWorld (Dir [("home", Dir [(".astra", Dir [])])]) ["home"] [] 0 [] [].
Example C48_nontrivial :
  is_rooted (sv_workDir C48_dot) = false /\ work_dir C48_dot C48_world' = w_cwd C48_world' /\
  forall n, n < 3 -> exists s w, again (fun env => env = ex_env no_fault) n 3 C48_dot C48_world' s w.
Proof.
  split; [reflexivity|]. split; [reflexivity|].
  intros [|[|[|n]]] H; [| | |lia]; apply ex_calls_again; vm_compute; reflexivity.
Qed.

(** The conditions of C48_openapi_partial, with the routes and components of C19. *)
Definition C48_full : Service := with_results C19_routes C19_good C48_dot.
Example C48_openapi_nontrivial :
  parsed_components (sv_components C48_full) /\ unambiguous (sv_components C48_full) /\
  NoDup (map comp_key (sv_components C48_full)) /\ (forall c, In c (sv_components C48_full) -> order_safe c) /\
  valid_orders (e_orders (ex_env no_fault)) /\
  exists s w, again (fun env => env = ex_env no_fault) 1 3 C48_full C48_world' s w.
Proof.
  split; [intros c [<-|[]]; simpl; parse_fields|].
  split; [split; [intros c [<-|[]]; reflexivity|]|].
  { intros c1 c2 t [<-|[]] [<-|[]] T. simpl in T. intuition subst; discriminate. }
  split; [repeat constructor; simpl; intuition congruence|].
  split; [exact (proj1 C19_nontrivial)|]. split; [apply plain_orders_valid|].
  apply ex_calls_again. vm_compute. reflexivity.
Qed.
