(** Property theorems about whole runs with custom functions: C85. *)
From Coq Require Import List String Ascii Bool ZArith Arith Lia Permutation.
From Verif Require Import BaseStr BaseMap M_Types M_Collect M_Paths M_TypeTrav M_OpenAPI M_Parse M_Clean M_FS M_Service S_Clean S_Collect S_Names S_OpenAPI S_Parse S_Paths S_Service S_Cache S_Files S_Custom S_Whole S_Example.
From Verif Require Import P_FS P_Path P_Frame P_Mono P_Temp P_Parse P_Parse3 P_Parse4 P_Paths P_Same P_Custom P_Whole P_Told Props_Clean Props_Names Props_OpenAPI Props_Parse Props_Files Props_Custom Props_Whole.
Import ListNotations.
Local Open Scope string_scope.

(** ** C85: a run with custom functions *)

(** The document has an operation for each route served and not denied, and no others, whatever polite custom functions record.
    Missing: TRACE, and custom functions that change which route they are given (C85_moved_refuted). *)
Theorem C85_routes_partial : forall env fuel prog s w s' w' before o after x,
  sane w -> kind_at (work_dir s w) (w_fs w) = Some KDir -> started s ->
  analyses_with env (sv_customFuncs s) fuel prog -> Forall polite (sv_customFuncs s) -> served_once s ->
  (forall i, offered s i -> gin_path (gi_path i)) ->
  sv_outputs s = (before ++ o :: after)%list -> out_generate o = GeOpenAPI x -> left_alone s w after (document_place s w x) ->
  Parse env s w = (Ok tt, s', w') ->
  exists yaml d, kind_at (document_place s w x) (w_fs w') = Some (KFile (CDocument yaml d)) /\
    (forall i, offered s i -> plain_method (gi_method i) -> exists op, operation_at d (openapi_path (gi_path i)) (gi_method i) op) /\
    (forall path method op, operation_at d path method op ->
       exists i, offered s i /\ openapi_path (gi_path i) = path /\ gi_method i = method) /\
    (forall path, In path (map fst (d_paths d)) <-> exists i, offered s i /\ openapi_path (gi_path i) = path).
Proof.
  intros env fuel prog s w s' w' before o after x SA HD FR AN HP ON GP EO GO LA E.
  destruct (whole_run_with env s w SA HD fuel prog before o after x s' w' FR AN HP ON EO GO LA E)
    as (rs & routes & main & comps & d & custom & config & names0 & names & CR & SI & _ & _ & _ & _ & G & K & _).
  assert (ND := created_once _ _ _ _ CR ON). assert (DR := cleaned_distinct main rs routes SI ND).
  assert (GP' : forall r, In r (cleanRoutes main routes) -> gin_path (rt_path r)).
  { intros r I. apply (cleaned_from main rs routes SI) in I as (r0 & I & -> & _).
    destruct (created_in _ _ _ _ _ CR I) as (i & p & I1 & I2 & _ & ->). cbn. apply GP. split; auto. }
  exists (is_yaml (openapiPath x)), d. split; [exact K|]. split; [|split].
  - intros i (I & AL) (M1 & M2). destruct (created_has _ _ _ _ _ CR I AL) as (p & _ & J).
    destruct (cleaned_in main rs routes SI _ J) as (r' & _ & J' & (_ & _ & _ & A & B)). cbn in A, B.
    destruct (C20_routes_documented_partial _ _ _ _ _ _ _ _ _ G DR GP' J') as (op & D & _); cbn [cleanRoute rt_method]; [congruence|congruence|].
    exists op. cbn [cleanRoute rt_path rt_method] in D. now rewrite A, B in D.
  - intros path method op D. destruct (C20_nothing_else _ _ _ _ _ _ _ _ _ _ _ G D) as (r & I & <- & <- & _).
    apply (cleaned_from main rs routes SI) in I as (r0 & I & -> & ->).
    destruct (created_in _ _ _ _ _ CR I) as (i & p & I1 & I2 & _ & ->). exists i. cbn. repeat split; auto.
  - intros path. rewrite (C20_paths_exact _ _ _ _ _ _ _ _ path G). split.
    + intros (r & I & <-). apply (cleaned_from main rs routes SI) in I as (r0 & I & -> & _).
      destruct (created_in _ _ _ _ _ CR I) as (i & p & I1 & I2 & _ & ->). exists i. cbn. repeat split; auto.
    + intros (i & (I & AL) & <-). destruct (created_has _ _ _ _ _ CR I AL) as (p & _ & J).
      destruct (cleaned_in main rs routes SI _ J) as (r' & _ & J' & (_ & _ & _ & A & B)). cbn in B.
      exists (cleanRoute main r'). split; auto. cbn. now rewrite B.
Qed.
Print Assumptions C85_routes_partial.

Lemma rounds_made fuel prog main cs f g id ctx doc l regs last :
  (forall m, pr_customs (prog m) = cs) -> Forall polite cs ->
  (forall m, m = "" \/ m = main -> fn_doc (pr_funcs (prog m) g) = doc /\ fn_ctx (pr_funcs (prog m) g) f = Ok ctx /\
     S_Custom.told (pr_funcs (prog m)) cs ctx f (fn_body (pr_funcs (prog m) g)) l regs last) -> ctx <> "" ->
  forall n r r', (forall m, m = "" \/ m = main -> handler_of (prog m) r f g id) ->
  rounds fuel prog main n r r' -> r' = made n doc id l r.
Proof.
  intros CU HP H NE n r r' HO R. revert HO. induction R as [r|n m r c r1 c1 r2 M P R IH]; intros HO; [reflexivity|].
  destruct (H m M) as (<- & H2 & H3).
  assert (E : r1 = applied l (prepared (fn_doc (pr_funcs (prog m) g)) id r)).
  { assert (H4 : S_Custom.told (pr_funcs (prog m)) (pr_customs (prog m)) ctx f (fn_body (pr_funcs (prog m) g)) l regs last) by (rewrite CU; exact H3).
    destruct (parseRoute_told (prog m) r f g id ctx l regs last (HO m M) H2 NE H4) as (N & S).
    destruct (parseRoute_upto (prog m) fuel (max fuel N) (Nat.le_max_l _ _) r c) as [X|X]; [congruence|].
    rewrite P, S in X by apply Nat.le_max_r. congruence. }
  rewrite IH; [|intros m' M'; eapply handler_of_identity; [|apply HO; exact M']; exact (proj1 (parseRoute_same cs HP _ _ _ _ _ _ (CU m) P))].
  subst r1. reflexivity.
Qed.

Lemma clean_unbound main l : Forall unbound l -> Forall unbound (map (cleanParam main) l).
Proof. induction 1; constructor; auto. Qed.

(** Full claim: each operation says what the custom functions and the other calls of the handler have recorded.  Missing: custom
    functions that change which route they are given (C85_moved_refuted) or answer by another (C79_refuted), the request body and
    the schemas of responses. *)
Theorem C85_told_partial : forall env fuel prog s w s' w' before o after x,
  sane w -> kind_at (work_dir s w) (w_fs w) = Some KDir -> started s ->
  analyses_with env (sv_customFuncs s) fuel prog -> Forall polite (sv_customFuncs s) -> served_once s ->
  valid_orders (e_orders env) -> (forall i, offered s i -> gin_path (gi_path i)) ->
  sv_outputs s = (before ++ o :: after)%list -> out_generate o = GeOpenAPI x -> left_alone s w after (document_place s w x) ->
  Parse env s w = (Ok tt, s', w') ->
  exists yaml d, kind_at (document_place s w x) (w_fs w') = Some (KFile (CDocument yaml d)) /\
    forall i file f g id doc ctx l regs last,
      offered s i -> plain_method (gi_method i) -> e_rel env ("/" ++ join "/" (w_cwd w)) (gi_file i) = Some file -> ctx <> "" ->
      (forall main, main = "" \/ main = sv_tempMain s' ->
         handler_of (prog main) (entry_route i file) f g id /\ fn_doc (pr_funcs (prog main) g) = doc /\
         fn_ctx (pr_funcs (prog main) g) f = Ok ctx /\
         S_Custom.told (pr_funcs (prog main)) (sv_customFuncs s) ctx f (fn_body (pr_funcs (prog main) g)) l regs last) ->
      exists op, operation_at d (openapi_path (gi_path i)) (gi_method i) op /\
        conveys op (made (times s) doc id l (entry_route i file)).
Proof.
  intros env fuel prog s w s' w' before o after x SA HD FR AN HP ON VO GP EO GO LA E.
  destruct (whole_run_with env s w SA HD fuel prog before o after x s' w' FR AN HP ON EO GO LA E)
    as (rs & routes & main & comps & d & custom & config & names0 & names & CR & SI & _ & RO & TM & EM & G & K & _).
  subst main. set (main := sv_tempMain s') in *.
  assert (ND := created_once _ _ _ _ CR ON). assert (DR := cleaned_distinct main rs routes SI ND).
  assert (GP' : forall r, In r (cleanRoutes main routes) -> gin_path (rt_path r)).
  { intros r I. apply (cleaned_from main rs routes SI) in I as (r0 & I & -> & _).
    destruct (created_in _ _ _ _ _ CR I) as (i & p & I1 & I2 & _ & ->). cbn. apply GP. split; auto. }
  exists (is_yaml (openapiPath x)), d. split; [exact K|].
  intros i file f g id doc ctx l regs last (I & AL) (M1 & M2) RE NE HO.
  destruct (created_has _ _ _ _ _ CR I AL) as (p & RE' & J). rewrite RE in RE'. injection RE' as <-. fold (entry_route i file) in J.
  assert (X : exists r', rounds fuel prog main (times s) (entry_route i file) r' /\ In r' routes /\ same_identity (entry_route i file) r').
  { clear - RO SI J. revert SI. induction RO as [|a b rs routes R F IH]; intros SI; [destruct J|]. inversion SI; subst.
    destruct J as [->|J]; [exists b; cbn; auto|]. destruct (IH J) as (r' & A & B & C); auto. exists r'. cbn. auto. }
  destruct X as (r' & R & IR & (_ & _ & _ & ID1 & ID2)). cbn in ID1, ID2.
  apply (rounds_made fuel prog main (sv_customFuncs s) f g id ctx doc l regs last) in R; auto;
    [|intros m; apply AN|intros m M; apply HO in M; tauto|intros m M; apply HO in M; tauto].
  rewrite <- R. assert (J' : In (cleanRoute main r') (cleanRoutes main routes)) by now apply in_map.
  destruct (C20_routes_documented_partial _ _ _ _ _ _ _ _ _ G DR GP' J') as (op & D);
    [cbn [cleanRoute rt_method]; congruence|cbn [cleanRoute rt_method]; congruence|].
  exists op. split; [destruct D as (D & _); cbn [cleanRoute rt_method rt_path] in D; now rewrite ID1, ID2 in D|].
  assert (ST := C21_statuses_exact _ _ _ _ _ _ _ _ _ _ G DR GP' J' D).
  destruct (C23_parameters_documented _ _ _ _ _ _ _ _ _ _ VO G DR GP' J' D) as (P1 & P2 & P3).
  assert (EX := C23_exact_partial _ _ _ _ _ _ _ _ _ _ VO G DR GP' J' D).
  assert (NC := fun status resp ct sch => C21_no_other_content _ _ _ _ _ _ _ _ _ _ status resp ct sch G DR GP' J' D).
  assert (NB := fun content ct m => C22_no_other_body _ _ _ _ _ _ _ _ _ _ content ct m G DR GP' J' D).
  destruct D as (_ & D1 & D2). split; [exact D1|]. split; [exact D2|]. split.
  { intros status. rewrite ST. cbn [cleanRoute rt_returns]. split.
    - intros (rt & H & ->). apply in_map_iff in H as (rt' & <- & H). exists rt'. auto.
    - intros (rt & H & ->). exists (cleanReturn main rt). split; auto. now apply in_map. }
  split. { intros q H U. refine (P1 (cleanParam main q) _ U). cbn [cleanRoute rt_pathParams]. now apply in_map. }
  split. { exact P2. }
  split. { intros q H U. refine (P3 (cleanParam main q) _ U). cbn [cleanRoute rt_queryParams]. now apply in_map. }
  split. { intros U1 U2 U3. rewrite <- EX; cbn [cleanRoute rt_pathParams rt_reqHeaders rt_queryParams]; auto using clean_unbound.
    unfold expected_entries. cbn [cleanRoute rt_pathParams rt_reqHeaders rt_queryParams]. rewrite !map_map. apply Permutation_refl. }
  split.
  - intros status resp content L1 L2. destruct (mlookup content (resp_content resp)) as [sch|] eqn:L3; [|now apply mlookup_None in L3].
    destruct (NC _ _ _ _ L1 L3) as (rt & H & A & B & _). cbn [cleanRoute rt_returns] in H. apply in_map_iff in H as (rt' & <- & H). exists rt'. auto.
  - intros content. destruct (op_requestBody op) as [l0|] eqn:L1; [|intros []]. intros L2.
    destruct (mlookup content l0) as [m|] eqn:L3; [|now apply mlookup_None in L3].
    destruct (NB _ _ _ eq_refl L3) as (b & sch & H & A & _). cbn [cleanRoute rt_body] in H. apply in_map_iff in H as (b' & <- & H). exists b'. auto.
Qed.
Print Assumptions C85_told_partial.

(** [r'] is [r] with its fields cleaned (C35: nothing is changed but packages and substituted types). *)
Definition route_cleaned (temp : string) (r r' : Route) : Prop :=
  (rt_handler r', rt_file r', rt_line r', rt_method r', rt_path r', rt_doc r', rt_operationId r') =
  (rt_handler r, rt_file r, rt_line r, rt_method r, rt_path r, rt_doc r, rt_operationId r) /\
  rt_reqHeaders r' = rt_reqHeaders r /\ rt_respHeaders r' = rt_respHeaders r /\
  Forall2 (param_cleaned temp) (rt_pathParams r) (rt_pathParams r') /\
  Forall2 (param_cleaned temp) (rt_queryParams r) (rt_queryParams r') /\
  Forall2 (fun b b' => (b_name b', b_contentType b', b_isRequired b', b_isArray b', b_isMap b', b_isBound b') =
                       (b_name b, b_contentType b, b_isRequired b, b_isArray b, b_isMap b, b_isBound b) /\
                       field_cleaned temp (b_field b) (b_field b')) (rt_body r) (rt_body r') /\
  Forall2 (fun t t' => (r_status t', r_contentType t') = (r_status t, r_contentType t) /\
                       field_cleaned temp (r_field t) (r_field t')) (rt_returns r) (rt_returns r').

Lemma distinct_same routes : distinct_routes routes -> forall r r', In r routes -> In r' routes ->
  rt_method r = rt_method r' -> rt_path r = rt_path r' -> r = r'.
Proof.
  unfold distinct_routes. induction routes as [|a l IH]; intros N r r' I I' M P; [destruct I|]. cbn in N. inversion N as [|? ? N1 N2]; subst.
  destruct I as [<-|I], I' as [<-|I']; auto.
  - exfalso. apply N1. apply in_map_iff. exists r'. split; auto. now rewrite M, P.
  - exfalso. apply N1. apply in_map_iff. exists r. split; auto. now rewrite M, P.
Qed.

(** The file of a JSON output holds everything: it has the routes offered, in their order, each as the changes told in the source
    make it, bodies, types and headers included, and nothing is changed but packages. *)
Theorem C85_results_partial : forall env fuel prog s w s' w' before o after x,
  sane w -> kind_at (work_dir s w) (w_fs w) = Some KDir -> started s ->
  analyses_with env (sv_customFuncs s) fuel prog -> Forall polite (sv_customFuncs s) -> served_once s ->
  sv_outputs s = (before ++ o :: after)%list -> out_generate o = GeJSON x ->
  left_alone s w after (place (work_dir s w) (with_extension [".json"] x)) ->
  Parse env s w = (Ok tt, s', w') ->
  exists routes components,
    kind_at (place (work_dir s w) (with_extension [".json"] x)) (w_fs w') = Some (KFile (CResults routes components)) /\
    (exists rs, created (e_rel env ("/" ++ join "/" (w_cwd w))) (sv_denyList s) (served s) rs /\ Forall2 same_identity rs routes) /\
    forall i file f g id doc ctx l regs last,
      offered s i -> e_rel env ("/" ++ join "/" (w_cwd w)) (gi_file i) = Some file -> ctx <> "" ->
      (forall main, main = "" \/ main = sv_tempMain s' ->
         handler_of (prog main) (entry_route i file) f g id /\ fn_doc (pr_funcs (prog main) g) = doc /\
         fn_ctx (pr_funcs (prog main) g) f = Ok ctx /\
         S_Custom.told (pr_funcs (prog main)) (sv_customFuncs s) ctx f (fn_body (pr_funcs (prog main) g)) l regs last) ->
      exists r', In r' routes /\ route_cleaned (sv_tempMain s') (made (times s) doc id l (entry_route i file)) r' /\
        forall r2, In r2 routes -> rt_method r2 = gi_method i -> rt_path r2 = gi_path i -> r2 = r'.
Proof.
  intros env fuel prog s w s' w' before o after x SA HD FR AN HP ON EO GO LA E.
  destruct (whole_json_with env s w SA HD fuel prog before o after x s' w' FR AN HP ON EO GO LA E)
    as (rs & routes & main & comps & CR & SI & _ & RO & TM & EM & K).
  subst main. set (main := sv_tempMain s') in *.
  assert (ND := created_once _ _ _ _ CR ON). assert (DR := cleaned_distinct main rs routes SI ND).
  exists (cleanRoutes main routes), (cleanComponents main comps). split; [exact K|].
  split. { exists rs. split; auto. clear - SI. induction SI; constructor; auto. }
  intros i file f g id doc ctx l regs last (I & AL) RE NE HO.
  destruct (created_has _ _ _ _ _ CR I AL) as (p & RE' & J). rewrite RE in RE'. injection RE' as <-. fold (entry_route i file) in J.
  assert (X : exists r', rounds fuel prog main (times s) (entry_route i file) r' /\ In r' routes /\ same_identity (entry_route i file) r').
  { clear - RO SI J. revert SI. induction RO as [|a b rs routes R F IH]; intros SI; [destruct J|]. inversion SI; subst.
    destruct J as [->|J]; [exists b; cbn; auto|]. destruct (IH J) as (r' & A & B & C); auto. exists r'. cbn. auto. }
  destruct X as (r' & R & IR & (_ & _ & _ & ID1 & ID2)). cbn in ID1, ID2.
  apply (rounds_made fuel prog main (sv_customFuncs s) f g id ctx doc l regs last) in R; auto;
    [|intros m; apply AN|intros m M; apply HO in M; tauto|intros m M; apply HO in M; tauto].
  rewrite <- R. exists (cleanRoute main r'). assert (J' : In (cleanRoute main r') (cleanRoutes main routes)) by now apply in_map.
  split; [exact J'|]. split.
  - destruct (C35_in_place main [] [r']) as (_ & Q). inversion Q as [|? ? ? ? (A & B) _]; subst. split; [exact A|exact B].
  - intros r2 I2 E1 E2. apply (distinct_same _ DR); auto; cbn [cleanRoute rt_method rt_path]; congruence.
Qed.
Print Assumptions C85_results_partial.

(** ** An example: handlers that answer errors by a function of their own *)
Definition error_env : Env :=
  mkEnv no_fault (fun _ _ => Some "h.go") (fun _ _ => false)
    (fun cs _ routes comps => GinParseRoutes 5 (with_customs cs (prog_of failing [handle])) routes comps) (fun _ _ => None) plain_orders.
Definition error_service (cs : list customFunc) : Service :=
  with_customFuncs cs (New [WithGinInput (Some [mkGin "GET" "/items" "app.Handle" "/src/app/h.go" 10]); WithConfig (Some shop_config); WithJSONOutput "routes"; WithOpenAPIOutput "api.json"]).

Lemma ended {A B C} (x : A * B * C) a : fst (fst x) = a -> x = (a, snd (fst x), snd x).
Proof. intros <-. now destruct x as [[p q] r]. Qed.

Example C85_nontrivial :
  let s := error_service [knows_errors] in let env := error_env in
  let prog := fun _ : string => with_customs [knows_errors] (prog_of failing [handle]) in
  let i := mkGin "GET" "/items" "app.Handle" "/src/app/h.go" 10 in
  sane ex_world /\ kind_at (work_dir s ex_world) (w_fs ex_world) = Some KDir /\ started s /\ sv_customFuncs s = [knows_errors] /\
  analyses_with env (sv_customFuncs s) 5 prog /\ Forall polite (sv_customFuncs s) /\ served_once s /\
  (forall i, offered s i -> gin_path (gi_path i)) /\ left_alone s ex_world [] (document_place s ex_world "api.json") /\
  (exists s' w', Parse env s ex_world = (Ok tt, s', w')) /\ offered s i /\ times s = 1 /\
  exists l regs, (forall main, handler_of (prog main) (entry_route i "h.go") 0 0 (Some "Handle") /\ fn_ctx (pr_funcs (prog main) 0) 0 = Ok "c" /\
    S_Custom.told (pr_funcs (prog main)) (sv_customFuncs s) "c" 0 (fn_body (pr_funcs (prog main) 0)) l regs false) /\
    map r_status (rt_returns (made 1 "" (Some "Handle") l (entry_route i "h.go"))) = [500%Z; 200%Z].
Proof.
  intros s env prog i.
  split; [exact ex_sane|]. split; [reflexivity|]. split; [repeat split|]. split; [reflexivity|].
  split; [intros m; split; reflexivity|].
  split. { constructor; [|constructor]. intros ctx c f r r'. unfold knows_errors. destruct (is_error c); [|discriminate]. intros [= <-].
    unfold text_answer. destruct (nth_error _ 1) as [a|]; [|apply same_identity_refl]. destruct (a_value a f); try apply same_identity_refl.
    destruct (ParseInt _); [repeat split|apply same_identity_refl]. }
  split. { unfold served_once. cbn. repeat constructor; cbn; tauto. }
  split. { intros j (I & _). cbn in I. destruct I as [<-|[]]; repeat constructor. }
  split. { split; [intros o []|]. split; [|discriminate]. intros (r & E). vm_compute in E. discriminate E. }
  split. { pose (X := Parse env s ex_world). exists (snd (fst X)), (snd X). apply ended. vm_compute. reflexivity. }
  split. { split; [cbn; auto|intros d []]. }
  split; [reflexivity|].
  assert (Leaf : forall f, told_all (pr_funcs (with_customs [knows_errors] (prog_of failing [handle]))) [knows_errors] "c" f [leaf] [] [] false).
  { intros f. apply tos_one, to_plain, tos_nil. }
  eexists _, _. split.
  - intros main. split; [exact (handled failing)|]. split; [reflexivity|].
    apply to_plain.
    eapply tos_cons.
    { eapply (to_gin _ _ "c" 0 _ _ "Query"); [apply aw_declines; [reflexivity|constructor]|now apply not_passing|reflexivity| |apply Leaf].
      eapply (gc_read 0 "Query" (fun n => EQuery (str_param n false false))); [now left|reflexivity]. }
    eapply tos_cons.
    { eapply to_taken; [|apply Leaf]. apply aw_takes with (ch := text_answer (error_call "500") 0). reflexivity. }
    apply tos_one. eapply (to_gin _ _ "c" 0 _ _ "JSON"); [apply aw_declines; [reflexivity|constructor]|now apply not_passing|reflexivity| |apply Leaf].
    eapply (gc_render 0 "JSON" "application/json"); [now left|reflexivity|reflexivity|reflexivity].
  - vm_compute. reflexivity.
Qed.

(** The file of the first output is left alone by the second. *)
Example C85_results_nontrivial : let s := error_service [knows_errors] in
  exists before o after, sv_outputs s = (before ++ o :: after)%list /\ out_generate o = GeJSON "routes" /\ after <> [] /\
    left_alone s ex_world after (place (work_dir s ex_world) (with_extension [".json"] "routes")).
Proof.
  intros s. exists [], (mkOutput "json" (GeJSON "routes") [("filePath", VStr "routes")]), (tl (sv_outputs s)).
  split; [reflexivity|]. split; [reflexivity|]. split; [discriminate|]. split; [|split].
  - intros o [<-|[]]. vm_compute. discriminate.
  - intros (r & E). vm_compute in E. discriminate E.
  - discriminate.
Qed.

(** Refuted for a custom function that changes the path of the route it is given: nothing it and the handler record is in the
    document, which has the route as it was, and the changed path is not in the document either. *)
Definition moves_errors : customFunc := fun _ c f r =>
  match r with
  | Some (mkRoute h fi li me pa pp qp bo re do0 oi rh sh) =>
      if is_error c then CuSame (text_answer c f (mkRoute h fi li me ("/v1" ++ pa) pp qp bo re do0 oi rh sh)) else CuNone []
  | None => CuNone []
  end.
Definition moved_service : Service := error_service [moves_errors].
Definition moved_route : GinRoute := mkGin "GET" "/items" "app.Handle" "/src/app/h.go" 10.
Definition moved_run := Parse error_env moved_service ex_world.
Lemma moved_ok : Parse error_env moved_service ex_world = (Ok tt, snd (fst moved_run), snd moved_run).
Proof. unfold moved_run. apply ended. vm_compute. reflexivity. Qed.
Theorem C85_moved_refuted : exists env fuel prog s w s' w' x yaml d i op,
  sane w /\ started s /\ analyses_with env (sv_customFuncs s) fuel prog /\ served_once s /\ offered s i /\
  sv_customFuncs s = [moves_errors] /\ Parse env s w = (Ok tt, s', w') /\
  kind_at (document_place s w x) (w_fs w') = Some (KFile (CDocument yaml d)) /\
  (exists r comps, parseRoute fuel (prog "") (entry_route i "h.go") [] = Ok (r, comps) /\ rt_path r = "/v1" ++ gi_path i /\
     map r_status (rt_returns r) = [500%Z; 200%Z]) /\
  operation_at d (openapi_path (gi_path i)) (gi_method i) op /\ op_responses op = [] /\ op_parameters op = [] /\
  ~ In ("/v1" ++ gi_path i) (map fst (d_paths d)).
Proof.
  exists error_env, 5, (fun _ => with_customs [moves_errors] (prog_of failing [handle])), moved_service, ex_world, (snd (fst moved_run)), (snd moved_run), "api.json".
  eexists _, _, moved_route, _.
  split; [exact ex_sane|]. split; [repeat split|]. split; [intros m; split; reflexivity|].
  split. { unfold served_once. cbn. repeat constructor; cbn; tauto. }
  split. { split; [cbn; auto|intros d []]. }
  split; [reflexivity|]. split; [exact moved_ok|]. split; [vm_compute; reflexivity|].
  split. { eexists _, _. split; [vm_compute; reflexivity|]. split; reflexivity. }
  split. { eexists. split; [vm_compute; reflexivity|vm_compute; reflexivity]. }
  split; [reflexivity|]. split; [reflexivity|]. vm_compute. intuition discriminate.
Qed.
Print Assumptions C85_moved_refuted.
