(** Property theorems about whole runs, from the routers and handlers to the file of the document: C63, C64; the
    fuel of the analysis: C31. *)
From Coq Require Import List String Ascii Bool ZArith Arith Lia Permutation.
From Verif Require Import BaseStr BaseMap M_Types M_Collect M_Paths M_TypeTrav M_OpenAPI M_Parse M_Clean M_FS M_Service S_Collect S_Names S_OpenAPI S_Parse S_Paths S_Service S_Cache S_Files S_Whole S_Example.
From Verif Require Import P_FS P_Path P_Frame P_Mono P_Temp P_Whole P_Told Props_Names Props_OpenAPI Props_Parse Props_Files.
Import ListNotations.
Local Open Scope string_scope.

(** ** C31 *)

(** The fuel of the model only tells whether an analysis has ended: all amounts that are enough give the same. *)
Theorem C31_fuel_irrelevant : forall prog n m routes comps,
  GinParseRoutes n prog routes comps <> OutOfFuel -> GinParseRoutes m prog routes comps <> OutOfFuel ->
  GinParseRoutes n prog routes comps = GinParseRoutes m prog routes comps.
Proof.
  intros prog n m routes comps H1 H2. unfold GinParseRoutes in *.
  destruct (Nat.le_ge_cases n m) as [L|L]; destruct (parse_from_upto prog _ _ L (List.length routes) 0 routes comps); congruence.
Qed.
Print Assumptions C31_fuel_irrelevant.

(** ** C63: a run documents the routes the routers serve *)

Section Cleaned.
  Context (main : string) (rs routes : list Route) (SI : Forall2 same_identity rs routes).
  Lemma cleaned_in r : In r rs -> exists r', In r' routes /\ In (cleanRoute main r') (cleanRoutes main routes) /\ same_identity r r'.
  Proof.
    intros I. assert (X : exists r', In r' routes /\ same_identity r r').
    { induction SI as [|a b l l' H F IH]; [destruct I|]. destruct I as [<-|I]; [exists b; cbn; auto|].
      destruct (IH F I) as (r' & A & B). exists r'. cbn. auto. }
    destruct X as (r' & A & B). exists r'. split; auto. split; auto. now apply in_map.
  Qed.
  Lemma cleaned_from r' : In r' (cleanRoutes main routes) -> exists r, In r rs /\ rt_path r' = rt_path r /\ rt_method r' = rt_method r.
  Proof.
    intros I. apply in_map_iff in I as (r0 & <- & I).
    induction SI as [|a b l l' (A & B & C & D & E) F IH]; [destruct I|]. destruct I as [<-|I]; [exists a; cbn; auto|].
    destruct (IH F I) as (r & X & Y). exists r. cbn [In]. auto.
  Qed.
  Lemma cleaned_distinct : NoDup (map key rs) -> distinct_routes (cleanRoutes main routes).
  Proof.
    intros ND. unfold distinct_routes, cleanRoutes. rewrite map_map. cbn [cleanRoute rt_method rt_path].
    rewrite <- (same_keys _ _ SI) in ND. clear SI. induction routes as [|r l IH]; cbn in *; [constructor|].
    inversion ND as [|? ? NI ND']; subst. constructor; auto. intros I. apply NI. apply in_map_iff in I as (x & E & I).
    apply in_map_iff. exists x. split; auto. unfold key. congruence.
  Qed.
End Cleaned.

(** Full claim: a successful run leaves, at the place of an OpenAPI output, a document with an operation for each
    route served and not denied, and no others.  Missing: TRACE (C20_routes_documented_refuted), runs with custom functions (C85),
    and a place other parts of the run write to or remove (below). *)
Theorem C63_routes_documented_partial : forall env fuel prog s w s' w' before o after x,
  sane w -> kind_at (work_dir s w) (w_fs w) = Some KDir -> fresh s -> analyses env fuel prog -> served_once s ->
  (forall i, offered s i -> gin_path (gi_path i)) ->
  sv_outputs s = (before ++ o :: after)%list -> out_generate o = GeOpenAPI x -> left_alone s w after (document_place s w x) ->
  Parse env s w = (Ok tt, s', w') ->
  exists yaml d, kind_at (document_place s w x) (w_fs w') = Some (KFile (CDocument yaml d)) /\
    (forall i, offered s i -> plain_method (gi_method i) -> exists op, operation_at d (openapi_path (gi_path i)) (gi_method i) op) /\
    (forall path method op, operation_at d path method op ->
       exists i, offered s i /\ openapi_path (gi_path i) = path /\ gi_method i = method) /\
    (forall path, In path (map fst (d_paths d)) <-> exists i, offered s i /\ openapi_path (gi_path i) = path).
Proof.
  intros env fuel prog s w s' w' before o after x SA HD FR AN ON GP EO GO LA E.
  destruct (whole_run env s w SA HD fuel prog before o after x s' w' FR AN ON EO GO LA E)
    as (rs & routes & main & comps & d & custom & config & names0 & names & CR & SI & _ & _ & _ & _ & G & K & _).
  assert (ND := created_once _ _ _ _ CR ON). assert (DR := cleaned_distinct main rs routes SI ND).
  assert (GP' : forall r, In r (cleanRoutes main routes) -> gin_path (rt_path r)).
  { intros r I. apply (cleaned_from main rs routes SI) in I as (r0 & I & -> & _).
    destruct (created_in _ _ _ _ _ CR I) as (i & p & I1 & I2 & _ & ->). cbn. apply GP. split; auto. }
  exists (is_yaml (openapiPath x)), d. split; [exact K|]. split; [|split].
  - intros i (I & AL) (M1 & M2). destruct (created_has _ _ _ _ _ CR I AL) as (p & _ & J).
    destruct (cleaned_in main rs routes SI _ J) as (r' & _ & J' & (_ & _ & _ & A & B)). cbn in A, B.
    destruct (C20_routes_documented_partial _ _ _ _ _ _ _ _ _ G DR GP' J') as (op & D & _); cbn [cleanRoute rt_method]; [congruence|congruence|].
    exists op. cbn [cleanRoute rt_path rt_method] in D. now rewrite A, B in D.
  - intros path method op D. destruct (C20_nothing_else _ _ _ _ _ _ _ _ _ _ _ G D) as (r & I & <- & <- & _).
    apply (cleaned_from main rs routes SI) in I as (r0 & I & -> & ->).
    destruct (created_in _ _ _ _ _ CR I) as (i & p & I1 & I2 & _ & ->). exists i. cbn. repeat split; auto.
  - intros path. rewrite (C20_paths_exact _ _ _ _ _ _ _ _ path G). split.
    + intros (r & I & <-). apply (cleaned_from main rs routes SI) in I as (r0 & I & -> & _).
      destruct (created_in _ _ _ _ _ CR I) as (i & p & I1 & I2 & _ & ->). exists i. cbn. repeat split; auto.
    + intros (i & (I & AL) & <-). destruct (created_has _ _ _ _ _ CR I AL) as (p & _ & J).
      destruct (cleaned_in main rs routes SI _ J) as (r' & _ & J' & (_ & _ & _ & A & B)). cbn in B.
      exists (cleanRoute main r'). split; auto. cbn. now rewrite B.
Qed.
Print Assumptions C63_routes_documented_partial.

(** ** C64: what the handlers do is in the document *)

(** With one router: the operation of a route tells what its handler documents, found by the
    independent description of handlers (S_Parse). *)
Theorem C64_handlers_told_partial : forall env fuel prog s w s' w' input before o after x,
  sane w -> kind_at (work_dir s w) (w_fs w) = Some KDir -> fresh s -> analyses env fuel prog -> served_once s ->
  valid_orders (e_orders env) -> (forall i, offered s i -> gin_path (gi_path i)) ->
  sv_inputs s = [input] -> in_parse input = PaGin ->
  sv_outputs s = (before ++ o :: after)%list -> out_generate o = GeOpenAPI x -> left_alone s w after (document_place s w x) ->
  Parse env s w = (Ok tt, s', w') ->
  exists yaml d main, kind_at (document_place s w x) (w_fs w') = Some (KFile (CDocument yaml d)) /\
    (main = "" \/ main = sv_tempMain s') /\
    forall i file f g id ctx strict es regs last,
      offered s i -> plain_method (gi_method i) -> e_rel env ("/" ++ join "/" (w_cwd w)) (gi_file i) = Some file ->
      handler_of (prog main) (entry_route i file) f g id ->
      fn_ctx (pr_funcs (prog main) g) f = Ok ctx -> ctx <> "" ->
      S_Parse.documents (pr_funcs (prog main)) strict ctx f (fn_body (pr_funcs (prog main) g)) es regs last ->
      exists op, operation_at d (openapi_path (gi_path i)) (gi_method i) op /\
        tells op (gi_path i) id (fn_doc (pr_funcs (prog main) g)) es.
Proof.
  intros env fuel prog s w s' w' input before o after x SA HD FR AN ON VO GP EI EP EO GO LA E.
  destruct (whole_run env s w SA HD fuel prog before o after x s' w' FR AN ON EO GO LA E)
    as (rs & routes & main & comps & d & custom & config & names0 & names & CR & SI & AL & RO & TM & EM & G & K & _).
  destruct (AL input EI EP) as (main0 & MM & _ & F). clear AL. subst main. set (main := sv_tempMain s') in *.
  assert (ND := created_once _ _ _ _ CR ON). assert (DR := cleaned_distinct main rs routes SI ND).
  assert (GP' : forall r, In r (cleanRoutes main routes) -> gin_path (rt_path r)).
  { intros r I. apply (cleaned_from main rs routes SI) in I as (r0 & I & -> & _).
    destruct (created_in _ _ _ _ _ CR I) as (i & p & I1 & I2 & _ & ->). cbn. apply GP. split; auto. }
  exists (is_yaml (openapiPath x)), d, main0. split; [exact K|]. split; [exact MM|].
  intros i file f g id ctx strict es regs last (I & AL) (M1 & M2) RE H1 H2 H3 H4.
  destruct (created_has _ _ _ _ _ CR I AL) as (p & RE' & J). rewrite RE in RE'. injection RE' as <-. fold (entry_route i file) in J.
  assert (X : exists c c' r', parseRoute fuel (prog main0) (entry_route i file) c = Ok (r', c') /\ In r' routes).
  { clear - F J. induction F as [|a b l l' (c & c' & E) F IH]; [destruct J|]. destruct J as [->|J]; [exists c, c', b; cbn; auto|].
    destruct (IH J) as (c1 & c2 & r' & A & B). exists c1, c2, r'. cbn. auto. }
  destruct X as (c & c' & r' & PR & IR). destruct (AN main0) as (CU & _).
  apply (analysis_is (prog main0) _ f g id strict ctx es regs last) in PR; auto.
  assert (J' : In (cleanRoute main (analysed (fn_doc (pr_funcs (prog main0) g)) id es (entry_route i file))) (cleanRoutes main routes)).
  { rewrite <- PR. now apply in_map. }
  assert (PM : rt_path (cleanRoute main (analysed (fn_doc (pr_funcs (prog main0) g)) id es (entry_route i file))) = gi_path i /\
               rt_method (cleanRoute main (analysed (fn_doc (pr_funcs (prog main0) g)) id es (entry_route i file))) = gi_method i).
  { unfold analysed, comment_of, with_op. destruct id, (String.eqb _ ""); split; reflexivity. }
  destruct PM as (PM1 & PM2).
  destruct (C20_routes_documented_partial _ _ _ _ _ _ _ _ _ G DR GP' J') as (op & D); [congruence|congruence|].
  exists op. split; [destruct D as (D & _); now rewrite PM1, PM2 in D|].
  exact (told _ _ _ _ _ _ _ _ _ _ _ _ _ _ _ VO G DR GP' J' D).
Qed.
Print Assumptions C64_handlers_told_partial.

(** ** An example *)

(** Two routes of the same handler and one that is denied; the document is below a directory that is there. *)
Definition shop_router : list GinRoute :=
  [mkGin "GET" "/items/:id" "app.Handle" "/src/app/h.go" 10; mkGin "POST" "/items/:id" "app.Handle" "/src/app/h.go" 10;
   mkGin "GET" "/debug" "app.Debug" "/src/app/h.go" 90].
Definition shop_config : Config := mkConfig "Shop" "" "1" ("", "", "") ("", "") false "h" "/" 80.
Definition shop_service : Service :=
  with_denyList [fun p => String.eqb p "/debug"]
    (New [WithGinInput (Some shop_router); WithJSONOutput "routes"; WithConfig (Some shop_config); WithOpenAPIOutput "api.yaml"; WithJSONOutput "later"]).
Definition shop_env : Env :=
  mkEnv no_fault (fun _ _ => Some "h.go") (fun _ _ => false)
    (fun _ _ routes comps => GinParseRoutes 5 (prog_of shop [handle]) routes comps) (fun _ _ => None) plain_orders.
Definition shop_program : string -> program := fun _ => prog_of shop [handle].
Definition api_output : Output := mkOutput "openapi" (GeOpenAPI "api.yaml") [("filePath", VStr "api.yaml")].

Example C63_nontrivial :
  sane ex_world /\ kind_at (work_dir shop_service ex_world) (w_fs ex_world) = Some KDir /\ fresh shop_service /\
  analyses shop_env 5 shop_program /\ served_once shop_service /\
  (forall i, offered shop_service i -> gin_path (gi_path i)) /\
  (exists before after, sv_outputs shop_service = (before ++ api_output :: after)%list /\ before <> [] /\ after <> [] /\
     left_alone shop_service ex_world after (document_place shop_service ex_world "api.yaml")) /\
  (exists s' w', Parse shop_env shop_service ex_world = (Ok tt, s', w')) /\
  offered shop_service (nth 1 shop_router (mkGin "" "" "" "" 0)) /\ ~ offered shop_service (nth 2 shop_router (mkGin "" "" "" "" 0)).
Proof.
  split; [exact ex_sane|]. split; [reflexivity|]. split; [repeat split|]. split; [intros m; split; [reflexivity|reflexivity]|].
  split. { unfold served_once. cbn. repeat constructor; cbn; intuition discriminate. }
  split. { intros i (I & _). cbn in I. destruct I as [<-|[<-|[<-|[]]]]; repeat constructor. }
  split.
  { exists [mkOutput "json" (GeJSON "routes") [("filePath", VStr "routes")]], [mkOutput "json" (GeJSON "later") [("filePath", VStr "later")]].
    split; [reflexivity|]. split; [discriminate|]. split; [discriminate|].
    split; [|split].
    - intros o [<-|[]]. vm_compute. discriminate.
    - intros (r & E). vm_compute in E. discriminate E.
    - discriminate. }
  split. { pose (X := Parse shop_env shop_service ex_world). exists (snd (fst X)), (snd X). vm_compute. reflexivity. }
  split; [split; [cbn; auto|intros d [<-|[]]; reflexivity]|].
  intros (_ & A). specialize (A _ (or_introl eq_refl)). discriminate A.
Qed.

(** The route and handler of the example meet the hypotheses of C64. *)
Example C64_nontrivial :
  let i := nth 0 shop_router (mkGin "" "" "" "" 0) in
  valid_orders (e_orders shop_env) /\ plain_method (gi_method i) /\ e_rel shop_env "/home" (gi_file i) = Some "h.go" /\
  handler_of (shop_program "") (entry_route i "h.go") 0 0 (Some "Handle") /\
  fn_ctx (pr_funcs (shop_program "") 0) 0 = Ok "c" /\
  S_Parse.documents (pr_funcs (shop_program "")) true "c" 0 (fn_body (pr_funcs (shop_program "") 0)) shop_events [item_result] false /\
  List.length shop_events = 4 /\ unbound_events shop_events.
Proof.
  split; [apply plain_orders_valid|]. split; [split; [cbn; auto|discriminate]|]. split; [reflexivity|].
  split; [exact (handled shop)|]. split; [reflexivity|]. split; [apply shop_documents|]. split; [reflexivity|].
  repeat constructor.
Qed.

(** Refuted for documents in the directory of astra: the run succeeds and has removed its document. *)
Theorem C63_removed_refuted : exists env s w s' w' x,
  sane w /\ kind_at (work_dir s w) (w_fs w) = Some KDir /\ fresh s /\ served_once s /\ (exists fuel prog, analyses env fuel prog) /\
  map out_generate (sv_outputs s) = [GeOpenAPI x] /\ Parse env s w = (Ok tt, s', w') /\
  kind_at (document_place s w x) (w_fs w') = None.
Proof.
  pose (s := New [WithGinInput (Some shop_router); WithConfig (Some shop_config); WithOpenAPIOutput ".astra/api.json"]).
  pose (env := mkEnv no_fault (fun _ _ => Some "h.go") (fun _ _ => false)
    (fun _ _ routes comps => GinParseRoutes 5 (prog_of shop [handle]) routes comps) (fun _ _ => None) plain_orders).
  pose (X := Parse env s ex_world).
  exists env, s, ex_world, (snd (fst X)), (snd X), ".astra/api.json".
  split; [exact ex_sane|]. split; [reflexivity|]. split; [repeat split|].
  split. { unfold served_once. cbn. repeat constructor; cbn; intuition discriminate. }
  split. { exists 5, (fun _ => prog_of shop [handle]). intros m; split; reflexivity. }
  split; [reflexivity|]. split; vm_compute; reflexivity.
Qed.
Print Assumptions C63_removed_refuted.
