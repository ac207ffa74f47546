(** Property theorems about headers and forms, from the source to the document: C73 and C74. *)
From Coq Require Import List String Ascii Bool ZArith Arith Lia.
From Verif Require Import BaseStr BaseMap M_Types M_Tags M_Collect M_Paths M_TypeTrav M_OpenAPI M_Parse M_Clean M_FS M_Service S_Collect S_OpenAPI S_Parse S_Paths S_Service S_Cache S_Files S_TypeTrav S_Whole S_Example M_Value S_Value.
From Verif Require Import M_Resolve S_Resolve P_Resolve S_Tags P_Tags P_Fields P_FS P_Path P_Frame P_Mono P_Temp P_Whole P_Told S_Names P_Parse3 P_Parse4 P_Comps
  S_Typed P_Typed S_Sends P_Sends P_Sent S_Queries P_Query S_Asked P_Asked P_Run P_Script Props_Files Props_Names Props_OpenAPI Props_Parse Props_Whole Props_Resolve Props_Source Props_Typed Props_Query.
Import ListNotations.
Local Open Scope string_scope.

(** Full statement: in the document of a run, a route has exactly the request headers that its handler asks for, by
    name or with a struct, and its responses have exactly the headers the handler sets.  Proved for one router,
    sources as in C70_route_partial and no earlier document, but for the headers read into a struct: they are not
    documented (C73_bound_refuted), the struct becomes one header without a name. *)
Theorem C73_headers_partial : forall co home packages camel f g ctx es regs last,
  no_named_pointers co -> scopes_agree co home -> go_names co ->
  first_context co f (fs_params (co_func co g)) ctx -> ctx <> "" -> (forall a, In a (fs_params (co_func co g)) -> sane_param co f a) ->
  says co home ctx f (fs_body (co_func co g)) es regs last ->
  exists N, forall n, N <= n ->
  forall env fuel s w s' w' input before o after x i file id,
  sane w -> kind_at (work_dir s w) (w_fs w) = Some KDir -> fresh s ->
  analyses env fuel (fun main => program_of co n (packages main) camel) -> served_once s ->
  valid_orders (e_orders env) -> (forall i, offered s i -> gin_path (gi_path i)) ->
  sv_inputs s = [input] -> in_parse input = PaGin -> sv_memo s = None -> w_names w = [] ->
  sv_outputs s = (before ++ o :: after)%list -> Forall no_document before ->
  out_generate o = GeOpenAPI x -> left_alone s w after (document_place s w x) ->
  offered s i -> plain_method (gi_method i) -> e_rel env ("/" ++ join "/" (w_cwd w)) (gi_file i) = Some file ->
  (forall main, main = "" \/ main = sv_tempMain s' -> handler_of (program_of co n (packages main) camel) (entry_route i file) f g id) ->
  Parse env s w = (Ok tt, s', w') ->
  exists yaml d op, kind_at (document_place s w x) (w_fs w') = Some (KFile (CDocument yaml d)) /\
    operation_at d (openapi_path (gi_path i)) (gi_method i) op /\
    (forall name, reads_header co home ctx f (fs_body (co_func co g)) name -> exists sch, has_header op false name sch /\ text_schema sch) /\
    (forall required name sch, has_header op required name sch ->
       (reads_header co home ctx f (fs_body (co_func co g)) name /\ text_schema sch /\ required = false) \/
       (name = "" /\ exists T, binds_header co home ctx f (fs_body (co_func co g)) T)) /\
    (forall status resp name, responds op status resp -> sets_header co home ctx f (fs_body (co_func co g)) name ->
       exists sch, carries resp name sch /\ text_schema sch) /\
    (forall status resp name h, responds op status resp -> mlookup name (resp_headers resp) = Some h ->
       sets_header co home ctx f (fs_body (co_func co g)) name /\ text_schema (h_schema h) /\ h_required h = false).
Proof.
  intros co home packages camel f g ctx es regs last P Ag GN Hc Hne Hs S.
  destruct (run_document co home packages camel f g ctx es regs last P Ag GN Hc Hne Hs S) as (N & HN). exists N.
  intros n L env fuel s w s' w' input before o after x i file id SA HD FR AN ON VO GP EI EP ME WN EO NB GO LA OF PM RE HO E.
  destruct (HN n L env fuel s w s' w' input before o after x i file id SA HD FR AN ON VO GP EI EP ME WN EO NB GO LA OF PM RE HO E)
    as (yaml & d & op & config & routes & comps & names & l & K & O & Ow & IC & G & DR & GP' & J & D).
  exists yaml, d, op. split; [exact K|]. split; [exact O|].
  destruct (headers_described co home _ _ _ _ _ _ _ _ VO G _ _ _ _ Ag _ _ S _ _ _ _ _ DR GP' J D) as (H1 & H2). split; [exact H1|]. split; [exact H2|].
  split.
  - intros status resp name R. exact (proj1 (set_headers co home _ _ _ _ _ _ _ _ G _ _ _ _ Ag _ _ S _ _ _ _ _ DR GP' J D status resp R) name).
  - intros status resp name h R. exact (proj2 (set_headers co home _ _ _ _ _ _ _ _ G _ _ _ _ Ag _ _ S _ _ _ _ _ DR GP' J D status resp R) name h).
Qed.
Print Assumptions C73_headers_partial.

(** Full statement: in the document of a run, the body of a request that is a form has exactly the fields that the
    handler reads, by name or with a struct, each described by what it holds.  Proved, as in C72_queries_partial, for
    handlers that read one text or file by name or the whole form into a struct; several fields overwrite each other
    (C74_fields_refuted), lists and maps are described as texts (C74_array_refuted).  In any case nothing is made up. *)
Theorem C74_forms_partial : forall co home packages camel f g ctx es regs last,
  no_named_pointers co -> scopes_agree co home -> go_names co ->
  first_context co f (fs_params (co_func co g)) ctx -> ctx <> "" -> (forall a, In a (fs_params (co_func co g)) -> sane_param co f a) ->
  says co home ctx f (fs_body (co_func co g)) es regs last ->
  exists N, forall n, N <= n ->
  forall env fuel s w s' w' input before o after x i file id level,
  sane w -> kind_at (work_dir s w) (w_fs w) = Some KDir -> fresh s ->
  analyses env fuel (fun main => program_of co n (packages main) camel) -> served_once s ->
  valid_orders (e_orders env) -> (forall i, offered s i -> gin_path (gi_path i)) ->
  sv_inputs s = [input] -> in_parse input = PaGin -> sv_memo s = None -> w_names w = [] ->
  sv_outputs s = (before ++ o :: after)%list -> Forall no_document before ->
  out_generate o = GeOpenAPI x -> left_alone s w after (document_place s w x) ->
  offered s i -> plain_method (gi_method i) -> e_rel env ("/" ++ join "/" (w_cwd w)) (gi_file i) = Some file ->
  (forall main, main = "" \/ main = sv_tempMain s' -> handler_of (program_of co n (packages main) camel) (entry_route i file) f g id) ->
  distinct_types (co_types co) (sv_tempMain s') (documented co) ->
  nameable (co_types co) (sv_tempMain s') (documented co) level -> named_mappings (sv_customTypes s) ->
  (forall T, binds_form co home ctx f (fs_body (co_func co g)) T -> transparent (co_types co) (sv_customTypes s) (sv_tempMain s') "form" T) ->
  Parse env s w = (Ok tt, s', w') ->
  exists yaml d op, kind_at (document_place s w x) (w_fs w') = Some (KFile (CDocument yaml d)) /\
    operation_at d (openapi_path (gi_path i)) (gi_method i) op /\
    (forall encoding name k, reads_form co home ctx f (fs_body (co_func co g)) encoding name k -> name <> "" ->
       k = Values string_type \/ k = File ->
       (forall name' k', reads_form co home ctx f (fs_body (co_func co g)) encoding name' k' -> name' = name /\ k' = k) ->
       (forall T, ~ binds_form co home ctx f (fs_body (co_func co g)) T) ->
       exists bodies sch p, op_requestBody op = Some bodies /\ mlookup encoding bodies = Some sch /\ one_property sch name p /\
         holds (co_types co) (sv_customTypes s) (sv_tempMain s') d k p) /\
    (forall encoding T, In encoding [urlencoded; multipart] -> binds_form co home ctx f (fs_body (co_func co g)) T ->
       (forall name k, ~ reads_form co home ctx f (fs_body (co_func co g)) encoding name k) ->
       exists bodies sch T', op_requestBody op = Some bodies /\ mlookup encoding bodies = Some sch /\
         binds_form co home ctx f (fs_body (co_func co g)) T' /\ portrays (co_types co) (sv_customTypes s) (sv_tempMain s') "form" d T' sch) /\
    (forall encoding name k, reads_form co home ctx f (fs_body (co_func co g)) encoding name k ->
       exists bodies sch, op_requestBody op = Some bodies /\ mlookup encoding bodies = Some sch) /\
    (forall encoding bodies sch, In encoding [urlencoded; multipart] -> op_requestBody op = Some bodies -> mlookup encoding bodies = Some sch ->
       tells_form co home ctx f (fs_body (co_func co g)) (sv_customTypes s) (sv_tempMain s') d encoding sch).
Proof.
  intros co home packages camel f g ctx es regs last P Ag GN Hc Hne Hs S.
  destruct (run_document co home packages camel f g ctx es regs last P Ag GN Hc Hne Hs S) as (N & HN). exists N.
  intros n L env fuel s w s' w' input before o after x i file id level SA HD FR AN ON VO GP EI EP ME WN EO NB GO LA OF PM RE HO DT NA NM All E.
  destruct (HN n L env fuel s w s' w' input before o after x i file id SA HD FR AN ON VO GP EI EP ME WN EO NB GO LA OF PM RE HO E)
    as (yaml & d & op & config & routes & comps & names & l & K & O & Ow & IC & G & DR & GP' & J & D).
  exists yaml, d, op. split; [exact K|]. split; [exact O|].
  destruct (forms_described co home _ _ _ _ _ _ _ _ VO G _ _ _ _ l Ag _ _ S _ _ _ _ _ DR GP' J D level P DT NA NM Ow IC All) as (H1 & H2 & H3).
  assert (EN : forall encoding name k, reads_form co home ctx f (fs_body (co_func co g)) encoding name k -> In encoding [urlencoded; multipart]).
  { intros encoding name k (m & I & _). cbn in I. repeat (destruct I as [I|I]; [injection I as _ <- _; cbn; tauto|]). destruct I. }
  split; [|split; [|split; [exact H1|exact H3]]].
  - intros encoding name k R NE Hk Only NB'. destruct (H1 _ _ _ R) as (bodies & sch & B1 & B2).
    destruct (H3 _ _ _ (EN _ _ _ R) B1 B2) as [(n' & k' & p & R' & N' & OP & Hh)|[(k' & R')|(T & B & _)]].
    + destruct (Only _ _ R') as (-> & ->). exists bodies, sch, p. auto.
    + exfalso. apply NE. destruct (Only _ _ R') as (X & _). auto.
    + now elim (NB' T).
  - intros encoding T Ie B NR. destruct (H2 _ _ Ie B) as (bodies & sch & B1 & B2).
    destruct (H3 _ _ _ Ie B1 B2) as [(n' & k' & p & R' & _)|[(k' & R')|(T' & B' & Po)]].
    + now elim (NR _ _ R').
    + now elim (NR _ _ R').
    + exists bodies, sch, T'. auto.
Qed.
Print Assumptions C74_forms_partial.

(** ** Examples *)
Definition ask_types : TypeEnv :=
  mkTE (fun i => nth i [Some ginPath; Some "app"; Some "app"] None)
       (fun i => nth i ["Context"; "Token"; "Login"] "")
       (fun i => nth i
          [GStruct [];
           GStruct [stamp "Token" ("header:" ++ quoted "X-Token") str_type];
           GStruct [stamp "Name" ("form:" ++ quoted "name") str_type; stamp "Days" ("form:" ++ quoted "days") (GSlice (GBasic "int" KInt))]] GOther)
       (fun _ => "") (fun _ => true) (fun _ => []) (fun _ => false).
Definition ask_route : GinRoute := mkGin "POST" "/do" "app.Do" "/src/app/do.go" 10.
Definition ask_service : Service :=
  New [WithGinInput (Some [ask_route]); WithConfig (Some shop_config); WithJSONOutput "routes"; WithOpenAPIOutput "api.yaml"; WithJSONOutput "later"].

(** What the theorems ask of the code, the service and the world. *)
Definition setting (T : gtype) (asks : list (string * list ex)) : Prop :=
  let co := script ask_types T asks in
  no_named_pointers co /\ scopes_agree co no_home /\ go_names co /\
  first_context co 0 (fs_params (co_func co 0)) "c" /\ (forall a, In a (fs_params (co_func co 0)) -> sane_param co 0 a) /\
  (exists es regs, says co no_home "c" 0 (fs_body (co_func co 0)) es regs false) /\
  sane ex_world /\ kind_at (work_dir ask_service ex_world) (w_fs ex_world) = Some KDir /\ fresh ask_service /\
  (forall n, analyses (script_env ask_types T asks n) 9 (script_program ask_types T asks n)) /\ served_once ask_service /\
  (forall i, offered ask_service i -> gin_path (gi_path i)) /\
  sv_memo ask_service = None /\ w_names ex_world = [] /\
  (exists before after, sv_outputs ask_service = (before ++ api_output :: after)%list /\ before <> [] /\ after <> [] /\ Forall no_document before /\
     left_alone ask_service ex_world after (document_place ask_service ex_world "api.yaml")) /\
  offered ask_service ask_route /\ plain_method (gi_method ask_route) /\
  (forall n main, handler_of (script_program ask_types T asks n main) (entry_route ask_route "do.go") 0 0 (Some "Do")).
(** The document of the run, and what it says of the route. *)
Definition outcome (T : gtype) (asks : list (string * list ex)) (d : Document) (op : Operation) : Prop :=
  exists s' w' yaml, Parse (script_env ask_types T asks 9) ask_service ex_world = (Ok tt, s', w') /\ temp_main (sv_tempMain s') /\
    kind_at (document_place ask_service ex_world "api.yaml") (w_fs w') = Some (KFile (CDocument yaml d)) /\
    operation_at d "/do" "POST" op.

Lemma ask_context : te_pkg ask_types 0 = Some ginPath /\ te_name ask_types 0 = "Context".
Proof. split; reflexivity. Qed.
Lemma ask_setting T asks es regs : (forall m args a, In (m, args) asks -> In a args -> script_arg a) -> each ask_types T asks asks es regs -> setting T asks.
Proof.
  intros HA E. unfold setting. cbn zeta. split. { intros id t. cbn. destruct id as [|[|[|[|id]]]]; discriminate. }
  split; [intros o f name g H; discriminate H|].
  split. { intros id. cbn. destruct id as [|[|[|[|id]]]]; (split; [reflexivity|intros p X; first [discriminate X|injection X as <-; reflexivity]]). }
  split; [apply script_param, ask_context|]. split; [apply script_param, ask_context|].
  split. { exists es, regs. apply script_says; auto using ask_context. }
  split; [exact ex_sane|]. split; [reflexivity|]. split; [repeat split|]. split; [intros n m; split; [reflexivity|reflexivity]|].
  split. { unfold served_once. cbn. repeat constructor; cbn; intuition discriminate. }
  split. { intros i (I & _). cbn in I. destruct I as [<-|[]]; repeat constructor. }
  split; [reflexivity|]. split; [reflexivity|].
  split.
  { exists [mkOutput "json" (GeJSON "routes") [("filePath", VStr "routes")]], [mkOutput "json" (GeJSON "later") [("filePath", VStr "later")]].
    split; [reflexivity|]. split; [discriminate|]. split; [discriminate|]. split; [constructor; [intros x; discriminate|constructor]|]. split; [|split].
    - intros o [<-|[]]. vm_compute. discriminate.
    - intros (r & X). vm_compute in X. discriminate X.
    - discriminate. }
  split; [split; [cbn; auto|intros d []]|]. split; [split; [cbn; auto|discriminate]|].
  intros n main. apply script_handled.
Qed.

(** A handler that reads a header, sets one and answers. *)
Definition number_arg (id : nat) (s : string) : ex := ELit id false s.
Definition token_asks : list (string * list ex) :=
  [("GetHeader", [text_arg 100 "X-Token"]); ("Header", [text_arg 101 "X-Rate"; text_arg 102 "1"]); ("Status", [number_arg 103 "204"])].
Ltac plain_args := let m := fresh in let args := fresh in let a := fresh in let I := fresh in let J := fresh in
  intros m args a I J; cbn in I; repeat (destruct I as [I|I]; [injection I as <- <-; cbn in J;
    repeat (destruct J as [<-|J]; [first [left; reflexivity|right; do 3 eexists; split; [reflexivity|repeat constructor]]|]); destruct J|]); destruct I.
Lemma token_args : forall m args a, In (m, args) token_asks -> In a args -> script_arg a.
Proof. plain_args. Qed.
Ltac is_text := apply script_text; [split; reflexivity|reflexivity].

Example C73_nontrivial :
  let co := script ask_types GOther token_asks in
  setting GOther token_asks /\
  reads_header co no_home "c" 0 (fs_body (co_func co 0)) "X-Token" /\ sets_header co no_home "c" 0 (fs_body (co_func co 0)) "X-Rate" /\
  exists d op resp, outcome GOther token_asks d op /\ responds op "204" resp /\
    map (fun q => (pa_name q, pa_in q)) (op_parameters op) = [("X-Token", "header")] /\ map fst (resp_headers resp) = ["X-Rate"].
Proof.
  cbn zeta. split.
  { eapply ask_setting; [exact token_args|].
    eapply each_cons. { apply (cc_read _ 0 "GetHeader" (fun n => EReqHeader (str_param n false false)) _ _ "X-Token"); [cbn; tauto|is_text]. }
    eapply each_cons. { apply (cc_read _ 0 "Header" (fun n => ERespHeader (str_param n false false)) _ _ "X-Rate"); [cbn; tauto|is_text]. }
    eapply each_cons. { eapply (cc_answer _ 0 "Status" "nil" "" _ _ 204); [cbn; tauto|]. apply (st_lit _ 0 103 "204" 204); [|right; reflexivity|reflexivity].
      exact (di_more 10 "20" 20 "4" (di_more 10 "2" 2 "0" (di_one 10 "2" ltac:(cbn; lia)) ltac:(cbn; lia)) ltac:(cbn; lia)). }
    constructor. }
  split. { exists "GetHeader", (text_arg 100 "X-Token"), [], 0. split; [apply script_called; [exact ask_context|exact token_args|cbn; tauto]|]. split; [cbn; tauto|is_text]. }
  split. { exists "Header", (text_arg 101 "X-Rate"), [text_arg 102 "1"], 0. split; [apply script_called; [exact ask_context|exact token_args|cbn; tauto]|]. split; [cbn; tauto|is_text]. }
  pose (X := Parse (script_env ask_types GOther token_asks 9) ask_service ex_world).
  assert (Y : fst (fst X) = Ok tt) by (vm_compute; reflexivity).
  assert (TM : temp_main (sv_tempMain (snd (fst X)))) by (vm_compute; reflexivity).
  assert (Z : exists yaml d op resp, kind_at (document_place ask_service ex_world "api.yaml") (w_fs (snd X)) = Some (KFile (CDocument yaml d)) /\
     operation_at d "/do" "POST" op /\ responds op "204" resp /\
     map (fun q => (pa_name q, pa_in q)) (op_parameters op) = [("X-Token", "header")] /\ map fst (resp_headers resp) = ["X-Rate"]).
  { do 4 eexists. split; [vm_compute; reflexivity|]. split; [eexists; split; vm_compute; reflexivity|]. split; [vm_compute; reflexivity|].
    split; vm_compute; reflexivity. }
  destruct Z as (yaml & d & op & resp & K & O & R). exists d, op, resp. split; [|exact R].
  exists (snd (fst X)), (snd X), yaml. split; [fold X; rewrite <- Y; now destruct X as ((? & ?) & ?)|]. auto.
Qed.

(** The members of a struct that headers are read into are not documented; a header without a name is. *)
Definition bound_asks : list (string * list ex) := [("ShouldBindHeader", [sale_ref])].
Lemma bound_args : forall m args a, In (m, args) bound_asks -> In a args -> script_arg a.
Proof. plain_args. Qed.
Ltac outcome_of T asks d op rest :=
  pose (X := Parse (script_env ask_types T asks 9) ask_service ex_world);
  assert (Y : fst (fst X) = Ok tt) by (vm_compute; reflexivity);
  assert (TM : temp_main (sv_tempMain (snd (fst X)))) by (vm_compute; reflexivity);
  assert (Z : exists yaml d op, kind_at (document_place ask_service ex_world "api.yaml") (w_fs (snd X)) = Some (KFile (CDocument yaml d)) /\
     operation_at d "/do" "POST" op /\ rest op)
   by (do 3 eexists; split; [vm_compute; reflexivity|]; split; [eexists; split; vm_compute; reflexivity|vm_compute; reflexivity]);
  destruct Z as (yaml & d & op & K & O & R);
  assert (OC : outcome T asks d op) by (exists (snd (fst X)), (snd X), yaml; split; [fold X; rewrite <- Y; now destruct X as ((? & ?) & ?)|]; auto);
  clear X Y TM K.

Theorem C73_bound_refuted : exists co fs fd d op,
  co = script ask_types (GNamed 1) bound_asks /\ outcome (GNamed 1) bound_asks d op /\
  binds_header co no_home "c" 0 (fs_body (co_func co 0)) (GPointer (GNamed 1)) /\ te_under (co_types co) 1 = GStruct fs /\
  In fd fs /\ member "header" fd "X-Token" /\ (forall required s, ~ has_header op required "X-Token" s) /\ exists s, has_header op false "" s.
Proof.
  outcome_of (GNamed 1) bound_asks d op (fun op => map (fun q => (pa_name q, pa_in q, pa_required q)) (op_parameters op) = [("", "header", false)]).
  eexists (script ask_types (GNamed 1) bound_asks), _, _, d, op. split; [reflexivity|]. split; [exact OC|].
  split. { exists "ShouldBindHeader", sale_ref, [], 0. split; [apply script_called; [exact ask_context|exact bound_args|cbn; tauto]|]. split; [cbn; tauto|apply script_addr]. }
  split; [reflexivity|]. split; [left; reflexivity|].
  split. { split; [reflexivity|]. split; [reflexivity|]. exists "X-Token". split; [now apply lookup_spec|reflexivity]. }
  destruct (op_parameters op) as [|q [|]] eqn:E; try discriminate R. cbn in R. injection R as R1 R2 R3. split.
  - intros rq s (q' & I & _ & N & _). rewrite E in I. destruct I as [<-|[]]. congruence.
  - exists (pa_schema q), q. rewrite E. split; [left; reflexivity|]. auto.
Qed.
Print Assumptions C73_bound_refuted.

(** *** Forms *)
Definition photo_asks : list (string * list ex) := [("PostForm", [text_arg 100 "name"]); ("FormFile", [text_arg 101 "photo"])].
Lemma photo_args : forall m args a, In (m, args) photo_asks -> In a args -> script_arg a.
Proof. plain_args. Qed.
Definition login_asks : list (string * list ex) := [("ShouldBind", [sale_ref])].
Lemma login_args : forall m args a, In (m, args) login_asks -> In a args -> script_arg a.
Proof. plain_args. Qed.
Definition login : gtype := GNamed 2.
Lemma login_reach T id : T = GOther \/ T = login -> reach ask_types true T (GNamed id) -> id = 2.
Proof.
  assert (H : forall T X, reach ask_types true T X -> In T [GOther; GNamed 2; te_under ask_types 2; str_type; GBasic "int" KInt; GSlice (GBasic "int" KInt)] ->
     forall id, X = GNamed id -> id = 2).
  { induction 1 as [T'|T' Y X P R IH]; intros I j E.
    - subst T'. cbn in I. repeat (destruct I as [I|I]; [first [discriminate I|injection I as <-; reflexivity]|]). destruct I.
    - apply IH; auto. clear IH R E. cbn in I.
      repeat (destruct I as [<-|I]; [inversion P as [| | | | |fs f If Ex|]; subst; try (cbn; tauto);
        cbn in If; repeat (destruct If as [<-|If]; [first [discriminate Ex|cbn; tauto]|]); destruct If|]). destruct I. }
  intros [-> | ->] R; refine (H _ _ R _ id eq_refl); cbn; auto.
Qed.
Lemma login_spoken main : temp_main main -> spoken main "app" = "app".
Proof. intros TM. unfold spoken. destruct (String.eqb_spec "app" main) as [E|_]; [rewrite <- E in TM; vm_compute in TM; discriminate TM|reflexivity]. Qed.
Lemma login_transparent main : temp_main main -> transparent ask_types [] main "form" login.
Proof.
  intros TM. split; [repeat constructor|]. intros id R. apply login_reach in R; [|auto]. subst id.
  exists "app". split; [reflexivity|]. rewrite (login_spoken main TM). split; [discriminate|]. right. split; [reflexivity|]. split; [|discriminate].
  cbn [te_under ask_types nth plain_definition]. split; [|split].
  - assert (PF : forall name v T, name <> "" -> flat T -> Lookup ("form:" ++ quoted v) "form" = Some v ->
     (forall k, In k BindingTags -> k <> "form" -> Lookup ("form:" ++ quoted v) k = None) -> (before_comma v = "-" -> v = "-") ->
     plain_field "form" (stamp name ("form:" ++ quoted v) T)).
    { intros name v T N F L NL B. split; auto. cbn [gf_embedded stamp gf_type gf_tag]. split; auto. split.
      - intros k x Ik H. apply lookup_spec in H. destruct (string_dec k "form"); auto. rewrite NL in H; auto. discriminate.
      - exists v. split; [now apply lookup_spec|]. split; auto. discriminate. }
    assert (NL : forall v, In v ["name"; "days"] -> forall k, In k BindingTags -> k <> "form" -> Lookup ("form:" ++ quoted v) k = None).
    { intros v Iv k Ik N. cbn in Iv, Ik. repeat (destruct Ik as [<-|Ik]; [try (now elim N); repeat (destruct Iv as [<-|Iv]; [reflexivity|]); destruct Iv|]). destruct Ik. }
    intros f I _. destruct I as [<-|[<-|[]]]; (apply PF; [discriminate| |reflexivity|apply NL; cbn; tauto|try discriminate; auto]).
    + apply S_Typed.fl_element. eapply S_Typed.el_basic. cbn. tauto.
    + apply S_Typed.fl_slice; [eapply S_Typed.el_basic; cbn; tauto|]. intros (b & k & E & [-> | ->]); discriminate.
  - right. eexists. split; [left; reflexivity|auto].
  - apply members_distinct. repeat constructor; cbn; intuition discriminate.
Qed.
Lemma ask_distinct T asks main : (forall m args a, In (m, args) asks -> In a args -> script_arg a) -> T = GOther \/ T = login -> temp_main main ->
  distinct_types ask_types main (documented (script ask_types T asks)) /\ nameable ask_types main (documented (script ask_types T asks)) (fun _ => 0).
Proof.
  intros HA HT TM. assert (Dc : forall id, documented (script ask_types T asks) id -> id = 2).
  { intros id Dc. apply script_documented in Dc; auto. eapply login_reach; eauto. }
  split; split.
  - intros id p U _ Hp. apply Dc in U. subst id. injection Hp as <-. split; [discriminate|]. split; [discriminate|]. split; [cbn; intuition discriminate|].
    split; [split; [discriminate|reflexivity]|]. intros fs f E I. injection E as <-. cbn in I. repeat (destruct I as [<-|I]; [discriminate|]). destruct I.
  - intros i j p q U V _ _ _ _ _ _. apply Dc in U, V. congruence.
  - intros i j p q U V _ _ Hp Hq L N. apply Dc in U, V. subst. exfalso. apply N. congruence.
  - intros i p U _ Hp. apply Dc in U. subst i. injection Hp as <-. rewrite (login_spoken main TM). split; [reflexivity|].
    vm_compute. repeat constructor; intuition discriminate.
Qed.

Example C74_nontrivial :
  let co := script ask_types GOther photo_asks in
  setting GOther photo_asks /\ named_mappings (sv_customTypes ask_service) /\
  (forall main, temp_main main -> distinct_types (co_types co) main (documented co) /\ nameable (co_types co) main (documented co) (fun _ => 0)) /\
  reads_form co no_home "c" 0 (fs_body (co_func co 0)) urlencoded "name" (Values string_type) /\
  reads_form co no_home "c" 0 (fs_body (co_func co 0)) multipart "photo" File /\
  (forall n k, reads_form co no_home "c" 0 (fs_body (co_func co 0)) urlencoded n k -> n = "name" /\ k = Values string_type) /\
  (forall n k, reads_form co no_home "c" 0 (fs_body (co_func co 0)) multipart n k -> n = "photo" /\ k = File) /\
  (forall T, ~ binds_form co no_home "c" 0 (fs_body (co_func co 0)) T) /\
  exists d op, outcome GOther photo_asks d op /\
    op_requestBody op = Some [(urlencoded, objectSchema [("name", typeSchema "string" "")]); (multipart, objectSchema [("photo", typeSchema "string" "binary")])].
Proof.
  cbn zeta. split.
  { eapply ask_setting; [exact photo_args|].
    eapply each_cons. { apply (cc_read _ 0 "PostForm" (fun n => EBody (form_value n false false)) _ _ "name"); [cbn; tauto|is_text]. }
    eapply each_cons. { apply (cc_read _ 0 "FormFile" (fun n => EBody (mkBody n (field_of_type "file") "multipart/form-data" false false false false)) _ _ "photo"); [cbn; tauto|is_text]. }
    constructor. }
  split; [exact predefined_named|]. split; [intros main TM; apply ask_distinct; [exact photo_args|auto|auto]|].
  split. { exists "PostForm". split; [cbn; tauto|]. exists "PostForm", (text_arg 100 "name"), [], 0. split; [apply script_called; [exact ask_context|exact photo_args|cbn; tauto]|]. split; [cbn; tauto|is_text]. }
  split. { exists "FormFile". split; [cbn; tauto|]. exists "FormFile", (text_arg 101 "photo"), [], 0. split; [apply script_called; [exact ask_context|exact photo_args|cbn; tauto]|]. split; [cbn; tauto|is_text]. }
  assert (Rd : forall enc n k, reads_form (script ask_types GOther photo_asks) no_home "c" 0 (script_body photo_asks) enc n k ->
     (enc = urlencoded /\ n = "name" /\ k = Values string_type) \/ (enc = multipart /\ n = "photo" /\ k = File)).
  { intros enc n k (m & F & m' & a & rest & f0 & C & [<-|[]] & Tx). apply script_calls in C as (I & ->); [|exact ask_context|exact photo_args].
    destruct I as [I|[I|[]]]; injection I as <- <- <-; [left|right];
      (cbn in F; repeat (destruct F as [F|F]; [first [discriminate F|injection F as <- <-]|]); try destruct F);
      (split; [reflexivity|]; split; [|reflexivity]; eapply text_one; [exact Tx|is_text]). }
  split. { intros n k R. destruct (Rd _ _ _ R) as [(_ & H)|(E & _)]; [exact H|discriminate E]. }
  split. { intros n k R. destruct (Rd _ _ _ R) as [(E & _)|(_ & H)]; [discriminate E|exact H]. }
  split. { intros T (m & a & rest & f0 & C & F & _). apply script_calls in C as (I & _); [|exact ask_context|exact photo_args].
           destruct I as [I|[I|[]]]; injection I as <- _; cbn in F; intuition discriminate. }
  outcome_of GOther photo_asks d op (fun op => op_requestBody op = Some [(urlencoded, objectSchema [("name", typeSchema "string" "")]); (multipart, objectSchema [("photo", typeSchema "string" "binary")])]).
  exists d, op. auto.
Qed.

(** The whole form is read into a struct. *)
Example C74_bound_nontrivial :
  let co := script ask_types login login_asks in
  setting login login_asks /\
  (forall main, temp_main main -> distinct_types (co_types co) main (documented co) /\ nameable (co_types co) main (documented co) (fun _ => 0)) /\
  binds_form co no_home "c" 0 (fs_body (co_func co 0)) (GPointer login) /\
  (forall encoding n k, ~ reads_form co no_home "c" 0 (fs_body (co_func co 0)) encoding n k) /\
  (forall main T', temp_main main -> binds_form co no_home "c" 0 (fs_body (co_func co 0)) T' -> transparent (co_types co) (sv_customTypes ask_service) main "form" T') /\
  exists d op bodies, outcome login login_asks d op /\ op_requestBody op = Some bodies /\
    mlookup urlencoded bodies = Some (refSchema "#/components/schemas/app.Login") /\ mlookup multipart bodies = Some (refSchema "#/components/schemas/app.Login") /\
    option_map s_props (mlookup "app.Login" (d_schemas d)) = Some [("days", arraySchema (typeSchema "integer" "int32") 0); ("name", typeSchema "string" "")].
Proof.
  cbn zeta. split.
  { let s := eval vm_compute in (snd (TypeResult 9 ask_types true (Some "app") "" login)) in match s with Ok ?r =>
      eapply ask_setting; [exact login_args|]; eapply each_cons; [|constructor];
      apply (cc_bind _ 0 "ShouldBind" bind_everything _ _ (ParseResultToField r) (fst (TypeResult 9 ask_types true (Some "app") "" login))); [cbn; tauto|];
      apply (script_value ask_types login login_asks 0 9) end.
    vm_compute. reflexivity. }
  split; [intros main TM; apply ask_distinct; [exact login_args|auto|auto]|].
  split. { exists "ShouldBind", sale_ref, [], 0. split; [apply script_called; [exact ask_context|exact login_args|cbn; tauto]|]. split; [cbn; tauto|apply script_addr]. }
  split. { intros enc n k (m & F & m' & a & rest & f0 & C & [<-|[]] & _). apply script_calls in C as (I & _); [|exact ask_context|exact login_args].
           destruct I as [I|[]]. injection I as <- _. cbn in F. intuition discriminate. }
  split. { intros main T' TM (m & a & rest & f0 & C & F & Ty). apply script_calls in C as (I & ->); [|exact ask_context|exact login_args].
           destruct I as [I|[]]. injection I as _ <- _. apply script_addr_only in Ty as ->. destruct (login_transparent main TM) as (V & R). split; [repeat constructor|].
           intros id X. apply R. inversion X as [|y z P X']; subst. inversion P; subst. exact X'. }
  pose (X := Parse (script_env ask_types login login_asks 9) ask_service ex_world).
  assert (Y : fst (fst X) = Ok tt) by (vm_compute; reflexivity).
  assert (TM : temp_main (sv_tempMain (snd (fst X)))) by (vm_compute; reflexivity).
  assert (Z : exists yaml d op bodies, kind_at (document_place ask_service ex_world "api.yaml") (w_fs (snd X)) = Some (KFile (CDocument yaml d)) /\
     operation_at d "/do" "POST" op /\ op_requestBody op = Some bodies /\
    mlookup urlencoded bodies = Some (refSchema "#/components/schemas/app.Login") /\ mlookup multipart bodies = Some (refSchema "#/components/schemas/app.Login") /\
    option_map s_props (mlookup "app.Login" (d_schemas d)) = Some [("days", arraySchema (typeSchema "integer" "int32") 0); ("name", typeSchema "string" "")]).
  { do 4 eexists. split; [vm_compute; reflexivity|]. split; [eexists; split; vm_compute; reflexivity|]. split; [vm_compute; reflexivity|].
    split; [vm_compute; reflexivity|]. split; vm_compute; reflexivity. }
  destruct Z as (yaml & d & op & bodies & K & O & R). exists d, op, bodies. split; [|exact R].
  exists (snd (fst X)), (snd X), yaml. split; [fold X; rewrite <- Y; now destruct X as ((? & ?) & ?)|]. auto.
Qed.

(** Of several fields of a form one is documented. *)
Definition fields_asks : list (string * list ex) := [("PostForm", [text_arg 100 "name"]); ("PostForm", [text_arg 101 "mail"])].
Lemma fields_args : forall m args a, In (m, args) fields_asks -> In a args -> script_arg a.
Proof. plain_args. Qed.
Theorem C74_fields_refuted : exists co d op,
  co = script ask_types GOther fields_asks /\ outcome GOther fields_asks d op /\
  reads_form co no_home "c" 0 (fs_body (co_func co 0)) urlencoded "name" (Values string_type) /\
  reads_form co no_home "c" 0 (fs_body (co_func co 0)) urlencoded "mail" (Values string_type) /\
  forall bodies enc sch, op_requestBody op = Some bodies -> In (enc, sch) bodies -> ~ In "name" (map fst (s_props sch)).
Proof.
  outcome_of GOther fields_asks d op (fun op => op_requestBody op = Some [(urlencoded, objectSchema [("mail", typeSchema "string" "")])]).
  exists (script ask_types GOther fields_asks), d, op. split; [reflexivity|]. split; [exact OC|].
  split. { exists "PostForm". split; [cbn; tauto|]. exists "PostForm", (text_arg 100 "name"), [], 0. split; [apply script_called; [exact ask_context|exact fields_args|cbn; tauto]|]. split; [cbn; tauto|is_text]. }
  split. { exists "PostForm". split; [cbn; tauto|]. exists "PostForm", (text_arg 101 "mail"), [], 0. split; [apply script_called; [exact ask_context|exact fields_args|cbn; tauto]|]. split; [cbn; tauto|is_text]. }
  intros bodies enc sch B I. rewrite R in B. injection B as <-. destruct I as [I|[]]. injection I as <- <-. intros [N|[]]. discriminate N.
Qed.
Print Assumptions C74_fields_refuted.

(** A list in a form is documented as a text. *)
Definition array_asks : list (string * list ex) := [("PostFormArray", [text_arg 100 "tags"])].
Lemma array_args : forall m args a, In (m, args) array_asks -> In a args -> script_arg a.
Proof. plain_args. Qed.
Theorem C74_array_refuted : exists co d op bodies sch p,
  co = script ask_types GOther array_asks /\ outcome GOther array_asks d op /\
  reads_form co no_home "c" 0 (fs_body (co_func co 0)) urlencoded "tags" (Values (GSlice string_type)) /\
  op_requestBody op = Some bodies /\ mlookup urlencoded bodies = Some sch /\ one_property sch "tags" p /\ text_schema p /\
  forall custom main, ~ holds (co_types co) custom main d (Values (GSlice string_type)) p.
Proof.
  outcome_of GOther array_asks d op (fun op => op_requestBody op = Some [(urlencoded, objectSchema [("tags", typeSchema "string" "")])]).
  exists (script ask_types GOther array_asks), d, op. eexists _, _, _. split; [reflexivity|]. split; [exact OC|].
  split. { exists "PostFormArray". split; [cbn; tauto|]. exists "PostFormArray", (text_arg 100 "tags"), [], 0. split; [apply script_called; [exact ask_context|exact array_args|cbn; tauto]|]. split; [cbn; tauto|is_text]. }
  split; [exact R|]. split; [reflexivity|]. split; [repeat split|]. split; [repeat split|].
  intros custom main H. specialize (H 0). inversion H as [| | | |e s x Ty| | |]; subst; discriminate.
Qed.
Print Assumptions C74_array_refuted.
