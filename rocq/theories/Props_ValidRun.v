(** Property theorems about the validity of the document of a whole run: C86. *)
From Coq Require Import List String Ascii Bool ZArith Arith Lia Permutation.
From Verif Require Import BaseStr BaseMap M_Types M_Tags M_Collect M_Paths M_TypeTrav M_OpenAPI M_Parse M_Clean M_FS M_Service M_Json S_Collect S_Names S_OpenAPI S_Parse S_Paths S_Service S_Cache S_Files S_Json S_Valid S_Whole S_ValidRun S_Example.
From Verif Require Import P_Collect P_FS P_Path P_Frame P_Mono P_Temp P_Parse P_Parse3 P_Parse4 P_Paths P_Whole P_Told P_Schema P_OpenAPI P_Position P_Valid P_ValidRun Props_Names Props_OpenAPI Props_Parse Props_Files Props_Whole Props_Valid Props_Paths Props_Inputs.
Import ListNotations.
Local Open Scope string_scope.

(** ** C86: the document of a run is a valid OpenAPI document *)

(** Full claim: every successful run leaves a valid document at the place of an OpenAPI output.  Missing: routers and handlers that
    are not sound and components that cannot be documented (S_ValidRun.v; C76 shows documents that are not valid without, and
    C86_refuted a run), several inputs (C84_once_refuted: parameters are listed twice), earlier documents (C17). *)
Theorem C86_valid_partial : forall env fuel prog s w s' w' input before o after x ids,
  sane w -> kind_at (work_dir s w) (w_fs w) = Some KDir -> fresh s -> analyses env fuel prog -> served_once s -> valid_orders (e_orders env) ->
  sv_inputs s = [input] -> in_parse input = PaGin -> sv_memo s = None -> w_names w = [] ->
  sv_outputs s = (before ++ o :: after)%list -> Forall no_document before ->
  out_generate o = GeOpenAPI x -> left_alone s w after (document_place s w x) ->
  Parse env s w = (Ok tt, s', w') ->
  sound_routers env prog w s s' ids -> sound_mapping (sv_customTypes s) ->
  (forall components, found env fuel prog s w s' components -> sound_components (sv_customTypes s) (cleanComponents (sv_tempMain s') components)) ->
  exists yaml d, kind_at (document_place s w x) (w_fs w') = Some (KFile (CDocument yaml d)) /\
    (forall float, valid_openapi (document_json float d)) /\
    (forall short float, (forall t, number (float t)) -> Forall utf8 (document_texts d) ->
       exists v, json (document_text short float d) v /\ (forall v', json (document_text short float d) v' -> v' = v) /\ valid_openapi v).
Proof.
  intros env fuel prog s w s' w' input before o after x ids SA HD FR AN ON VO EI EP ME WN EO NB GO LA E [R1 R2 R3 R4 R5] SM SC.
  destruct (whole_run env s w SA HD fuel prog before o after x s' w' FR AN ON EO GO LA E)
    as (rs & routes & main & comps & d & custom & config & names0 & names & CR & SI & AL & _ & TM & EM & G & K & SK).
  destruct (SK NB) as (EC & EN). rewrite ME in EC. rewrite WN in EN. subst custom names0 main. clear SK. set (main := sv_tempMain s') in *.
  destruct (AL input EI EP) as (main0 & MM & EA & F2). destruct (AN main0) as (CU & AN0). rewrite AN0 in EA.
  destruct (SC comps) as [C1 C2 C3 C4 C5]. { exists main0, rs, routes. auto. }
  assert (NE : main <> "") by (now apply temp_main_not).
  exists (is_yaml (openapiPath x)), d. split; [exact K|].
  assert (H : forall r, In r (cleanRoutes main routes) -> exists i es doc file, offered s i /\ sound_events es /\
     r = cleanRoute main (analysed doc (ids i) es (entry_route i file))).
  { intros r I. apply in_map_iff in I as (r' & <- & I).
    assert (X : exists r0 c c', In r0 rs /\ parseRoute fuel (prog main0) r0 c = Ok (r', c')).
    { clear - F2 I. induction F2 as [|a b l l' (c & c' & P) F IH]; [destruct I|]. destruct I as [<-|I]; [exists a, c, c'; cbn; auto|].
      destruct (IH I) as (r0 & c1 & c2 & A & B). exists r0, c1, c2. cbn. auto. }
    destruct X as (r0 & c & c' & J & PR). destruct (created_in _ _ _ _ _ CR J) as (i & p & I1 & I2 & RE & ->). fold (entry_route i p) in PR.
    assert (OF : offered s i) by (split; auto). destruct (R3 i OF) as (es & B & SE).
    destruct B as (file & f & g & ctx & strict & regs & last & RE' & NC & HO). rewrite RE in RE'. injection RE' as <-.
    destruct (HO main0 MM) as (H1 & H2 & H3). apply (analysis_is (prog main0) _ f g (ids i) strict ctx es regs last) in PR; auto.
    exists i, es, (fn_doc (pr_funcs (prog main0) g)), p. subst r'. auto. }
  assert (SR : sound_routes (cleanRoutes main routes)); [|split; [intros; eapply C76_valid_partial; eauto|intros; eapply C76_text_partial; eauto]]. split.
  - destruct R1 as (i & I1 & I2). destruct (created_has _ _ _ _ _ CR I1 I2) as (p & _ & J).
    destruct (cleaned_in main rs routes SI _ J) as (r' & _ & J' & _). intros X. rewrite X in J'. destruct J'.
  - apply Forall_forall. intros r I. destruct (H r I) as (i & es & doc & file & OF & SE & ->). apply analysed_sound; auto.
  - intros r r' I I' S. destruct (H r I) as (i & es & doc & file & OF & _ & ->), (H r' I') as (i' & es' & doc' & file' & OF' & _ & ->).
    cbn [cleanRoute rt_path] in *. destruct (analysed_parts doc (ids i) es (entry_route i file)) as (A & _), (analysed_parts doc' (ids i') es' (entry_route i' file')) as (A' & _).
    rewrite A, A' in *. cbn [entry_route rt_path] in *. f_equal. auto.
  - intros r r' I I' S N. destruct (H r I) as (i & es & doc & file & OF & _ & ->), (H r' I') as (i' & es' & doc' & file' & OF' & _ & ->).
    cbn [cleanRoute rt_path rt_method rt_operationId] in *.
    destruct (analysed_parts doc (ids i) es (entry_route i file)) as (A1 & A2 & _ & _ & _ & _ & _ & _ & A3), (analysed_parts doc' (ids i') es' (entry_route i' file')) as (A1' & A2' & _ & _ & _ & _ & _ & _ & A3').
    rewrite A1, A1', A2, A2' in *. rewrite A3, A3' in S. rewrite A3 in N. cbn [entry_route rt_path rt_method rt_operationId] in *.
    destruct (ids i) as [n|] eqn:E1; [|congruence]. destruct (ids i') as [n'|] eqn:E2; [|congruence]. subst n'.
    destruct (R5 _ _ _ OF OF' E1 E2 N) as (-> & ->). auto.
Qed.
Print Assumptions C86_valid_partial.

(** The same with a condition on the source in place of the components: the types of what handlers send and receive can be
    documented.  Missing: as above. *)
Theorem C86_source_partial : forall env fuel prog s w s' w' input before o after x ids,
  sane w -> kind_at (work_dir s w) (w_fs w) = Some KDir -> fresh s -> analyses env fuel prog -> served_once s -> valid_orders (e_orders env) ->
  sv_inputs s = [input] -> in_parse input = PaGin -> sv_memo s = None -> w_names w = [] ->
  sv_outputs s = (before ++ o :: after)%list -> Forall no_document before ->
  out_generate o = GeOpenAPI x -> left_alone s w after (document_place s w x) ->
  Parse env s w = (Ok tt, s', w') ->
  sound_routers env prog w s s' ids -> sound_mapping (sv_customTypes s) ->
  (forall main, main = "" \/ main = sv_tempMain s' -> sound_types (sv_customTypes s) (sv_tempMain s') (prog main)) ->
  exists yaml d, kind_at (document_place s w x) (w_fs w') = Some (KFile (CDocument yaml d)) /\
    (forall float, valid_openapi (document_json float d)) /\
    (forall short float, (forall t, number (float t)) -> Forall utf8 (document_texts d) ->
       exists v, json (document_text short float d) v /\ (forall v', json (document_text short float d) v' -> v' = v) /\ valid_openapi v).
Proof.
  intros env fuel prog s w s' w' input before o after x ids SA HD FR AN ON VO EI EP ME WN EO NB GO LA E SR SM ST.
  eapply C86_valid_partial; eauto. intros comps (main & rs & routes & M & CR & G).
  refine (sound_found _ _ (prog main) fuel rs routes comps (proj1 (AN main)) _ G (ST main M)). exact (created_once _ _ _ _ CR ON).
Qed.
Print Assumptions C86_source_partial.

Lemma operation_codes float names path op : valid_operation names path (operation_json float op) -> forall k, In k (map fst (op_responses op)) -> valid_code k.
Proof.
  intros (o & rs & ids & E & _ & _ & _ & _ & _ & _ & _ & R & _ & Rv). unfold operation_json in E. injection E as <-.
  member R. destruct R as (_ & R & _). injection R as R. intros k I. apply in_map_iff in I as ((k' & r) & <- & I).
  destruct (Rv k' (response_json float r)) as (V & _); auto. subst rs. apply in_map_iff. exists (k', r). auto.
Qed.
Lemma params_marked segs ps : Forall gin_segment segs -> seg_params segs ps -> forall m n, In (m, n) ps -> marker m /\ has_char "*" n = false.
Proof.
  intros G H. induction H as [|lit m name seg segs ps S H IH|seg segs ps N H IH]; intros m0 n0 I; inversion_clear G as [|? ? G1 G2]; [destruct I| |auto].
  destruct I as [I|I]; auto. injection I as <- <-. pose proof (gin_segment_name _ _ _ _ G1 S) as (N1 & N2 & _). split; [apply S|auto].
Qed.
Lemma itoa_not_default z : itoa z <> "default".
Proof. unfold itoa. destruct (Z.to_int z) as [u|u]; destruct u; cbn; discriminate. Qed.

(** Conversely (most conditions are needed): if the document of a run is valid, every handler of a documented route answers, with
    statuses from 100 to 599, reads each parameter once and by name unless it binds some, and has an id of its own; and, unless it binds some, its path
    has no catch-all parameter and no parameter twice.  No two paths differ in the names of path parameters only. *)
Theorem C86_needed : forall env fuel prog s w s' w' input before o after x yaml d float,
  sane w -> kind_at (work_dir s w) (w_fs w) = Some KDir -> fresh s -> analyses env fuel prog -> served_once s -> valid_orders (e_orders env) ->
  (forall i, offered s i -> gin_path (gi_path i)) ->
  sv_inputs s = [input] -> in_parse input = PaGin ->
  sv_outputs s = (before ++ o :: after)%list -> out_generate o = GeOpenAPI x -> left_alone s w after (document_place s w x) ->
  Parse env s w = (Ok tt, s', w') ->
  kind_at (document_place s w x) (w_fs w') = Some (KFile (CDocument yaml d)) -> valid_openapi (document_json float d) ->
  (forall i id es, offered s i -> plain_method (gi_method i) -> behaves env prog w s' i id es ->
     returns_of es <> [] /\ (forall t, In t (returns_of es) -> (100 <= r_status t <= 599)%Z) /\
     (unbound_events es -> NoDup (map p_name (reqHeaders_of es)) /\ NoDup (map p_name (queries_of es)) /\
        (forall p, In (EReqHeader p) es \/ In (EQuery p) es -> p_name p <> "") /\
        forall ps, seg_params (split "/" (gi_path i)) ps -> NoDup (map snd ps) /\ forall mn, In mn ps -> fst mn = ":"%char)) /\
  (forall i i' id es es', offered s i -> offered s i' -> plain_method (gi_method i) -> plain_method (gi_method i') ->
     behaves env prog w s' i (Some id) es -> behaves env prog w s' i' (Some id) es' -> id <> "" ->
     gi_path i = gi_path i' /\ gi_method i = gi_method i') /\
  (forall i i' id id' es es', offered s i -> offered s i' -> plain_method (gi_method i) -> plain_method (gi_method i') ->
     behaves env prog w s' i id es -> behaves env prog w s' i' id' es' ->
     shape (openapi_path (gi_path i)) = shape (openapi_path (gi_path i')) -> gi_path i = gi_path i').
Proof.
  intros env fuel prog s w s' w' input before o after x yaml d float SA HD FR AN ON VO GP EI EP EO GO LA E KD V.
  destruct (C64_handlers_told_partial env fuel prog s w s' w' input before o after x SA HD FR AN ON VO GP EI EP EO GO LA E)
    as (yaml' & d' & main & K & MM & T). rewrite KD in K. injection K as <- <-.
  assert (B : forall i id es, offered s i -> plain_method (gi_method i) -> behaves env prog w s' i id es ->
    exists op item, mlookup (openapi_path (gi_path i)) (d_paths d) = Some item /\ slot (gi_method i) item = Some op /\
      exists doc, tells op (gi_path i) id doc es).
  { intros i id es OF PM (file & f & g & ctx & strict & regs & last & RE & NC & H). destruct (H main MM) as (H1 & H2 & H3).
    destruct (T i file f g id ctx strict es regs last OF PM RE H1 H2 NC H3) as (op & (item & L & S) & TE). exists op, item. eauto. }
  apply document_inv in V as (_ & V2 & V3 & V4 & _). split; [|split].
  - intros i id es OF PM BE. destruct (B i id es OF PM BE) as (op & item & L & S & doc & _ & _ & T1 & _ & _ & ps & T3 & T4 & T2).
    assert (X := V2 _ _ _ _ (mlookup_In _ _ _ L) (proj1 PM) S). assert (Y := operation_codes _ _ _ _ X).
    apply operation_inv in X as (A & P & ND & TP & _).
    assert (R : forall t, In t (returns_of es) <-> In (EReturn t) es).
    { intros t. unfold returns_of. rewrite in_flat_map. split; [|intros I; exists (EReturn t); cbn; auto]. intros (e & I & J). destruct e; cbn in J; try tauto. now destruct J as [<-|[]]. }
    split; [|split].
    + intros Z. destruct (op_responses op) as [|(k & r) l] eqn:El; [auto|]. destruct (proj1 (T1 k) (or_introl eq_refl)) as (rt & I & _).
      apply R in I. rewrite Z in I. destruct I.
    + intros t I. apply R in I. destruct (Y (itoa (r_status t))) as [D|(z & D & Z)]; [apply T1; eauto|now apply itoa_not_default in D|].
      apply itoa_inj in D. now subst.
    + intros U. specialize (T2 U). apply (Permutation_map fst) in T2. rewrite !map_app in T2.
      assert (IE : map fst (entries op) = map id_of (op_parameters op)) by (unfold entries; rewrite map_map; reflexivity). rewrite IE in T2.
      assert (N := Permutation_NoDup (Permutation_sym T2) ND). apply nodup_app in N as (N0 & N & _). apply nodup_app in N as (N1 & N2 & _).
      assert (NE : forall q, In q (map id_of (op_parameters op)) -> fst q <> "").
      { intros q I. apply in_map_iff in I as (q' & <- & I). rewrite Forall_forall in P. now apply P. }
      rewrite !map_map in N0, N1, N2. split; [|split; [|split]].
      * apply (NoDup_map_inv (fun n => (n, "header"))). rewrite map_map. exact N1.
      * apply (NoDup_map_inv (fun n => (n, "query"))). rewrite map_map. exact N2.
      * intros p [I|I].
        -- apply (NE (p_name p, "header")). apply (Permutation_in _ T2). rewrite !in_app_iff. right; left. rewrite map_map. apply in_map_iff. exists p. split; auto.
           unfold reqHeaders_of. apply in_flat_map. exists (EReqHeader p). cbn. auto.
        -- apply (NE (p_name p, "query")). apply (Permutation_in _ T2). rewrite !in_app_iff. right; right. rewrite map_map. apply in_map_iff. exists p. split; auto.
           unfold queries_of. apply in_flat_map. exists (EQuery p). cbn. auto.
      * intros ps' S'. rewrite (seg_params_fun _ _ _ S' T3). split.
        { apply (NoDup_map_inv (fun n => (n, "path"))). rewrite map_map. exact N0. }
        assert (NM := params_marked _ _ (GP i OF) T3). intros (m & n) I. destruct (NM m n I) as ([-> | ->] & _); [reflexivity|]. exfalso.
        assert (J : In (n ++ "*") (templates (openapi_path (gi_path i)))).
        { rewrite (templates_openapi _ ps (GP i OF) T3). apply in_map_iff. exists ("*"%char, n). auto. }
        apply TP in J. apply (Permutation_in _ (Permutation_sym T2)) in J. rewrite !in_app_iff, !map_map in J.
        destruct J as [J|[J|J]]; apply in_map_iff in J as (y & J & K).
        -- destruct y as (m' & n'). cbn in J. injection J as ->. apply NM in K as (_ & K). rewrite has_char_append in K. cbn in K. now destruct (has_char "*" n).
        -- discriminate J.
        -- discriminate J.
  - intros i i' id es es' OF OF' PM PM' BE BE' N. destruct (B i _ es OF PM BE) as (op & item & L & S & doc & T1 & _).
    destruct (B i' _ es' OF' PM' BE') as (op' & item' & L' & S' & doc' & T1' & _).
    destruct (V4 _ _ _ _ _ _ _ _ (mlookup_In _ _ _ L) (proj1 PM) S (mlookup_In _ _ _ L') (proj1 PM') S') as (A & A'); try congruence.
    split; auto. apply C03_documented_paths_distinct; auto.
  - intros i i' id id' es es' OF OF' PM PM' BE BE' SH. destruct (B i _ es OF PM BE) as (op & item & L & _).
    destruct (B i' _ es' OF' PM' BE') as (op' & item' & L' & _).
    apply C03_documented_paths_distinct; auto. apply mlookup_In in L, L'. exact (V3 _ _ (in_map fst _ _ L) (in_map fst _ _ L') SH).
Qed.
Print Assumptions C86_needed.

(** With several inputs: the document is not valid if any handler reads a parameter by name, and binds nothing. *)
Theorem C86_several : forall env fuel prog s w s' w' before o after x yaml d i id es,
  sane w -> kind_at (work_dir s w) (w_fs w) = Some KDir -> fresh s -> analyses env fuel prog -> served_once s -> valid_orders (e_orders env) ->
  (forall i, offered s i -> gin_path (gi_path i)) -> 1 < times s ->
  sv_outputs s = (before ++ o :: after)%list -> out_generate o = GeOpenAPI x -> left_alone s w after (document_place s w x) ->
  Parse env s w = (Ok tt, s', w') ->
  kind_at (document_place s w x) (w_fs w') = Some (KFile (CDocument yaml d)) ->
  (forall main g, fn_doc (pr_funcs (prog main) g) = fn_doc (pr_funcs (prog "") g)) ->
  offered s i -> plain_method (gi_method i) -> behaves env prog w s' i id es -> unbound_events es ->
  reqHeaders_of es <> [] \/ queries_of es <> [] ->
  forall float, ~ valid_openapi (document_json float d).
Proof.
  intros env fuel prog s w s' w' before o after x yaml d i id es SA HD FR AN ON VO GP TI EO GO LA E KD SD OF PM (file & f & g & ctx & strict & regs & last & RE & NC & H) U RD float V.
  destruct (C84_told_partial env fuel prog s w s' w' before o after x SA HD FR AN ON VO GP ltac:(lia) EO GO LA E)
    as (yaml' & d' & K & T). rewrite KD in K. injection K as <- <-.
  destruct (T i file f g id (fn_doc (pr_funcs (prog "") g)) ctx strict es regs last OF PM RE NC) as (op & (item & L & S) & TE).
  { intros main M. destruct (H main M) as (H1 & H2 & H3). rewrite SD. auto. }
  destruct TE as (_ & _ & _ & _ & _ & ps & _ & _ & T2). specialize (T2 U).
  apply document_inv in V as (_ & V2 & _). assert (X := V2 _ _ _ _ (mlookup_In _ _ _ L) (proj1 PM) S). apply operation_inv in X as (_ & _ & ND & _).
  apply (Permutation_map fst) in T2. rewrite map_app in T2.
  assert (IE : map fst (entries op) = map id_of (op_parameters op)) by (unfold entries; rewrite map_map; reflexivity). rewrite IE in T2.
  assert (N := Permutation_NoDup (Permutation_sym T2) ND). apply nodup_app in N as (_ & N & _).
  destruct (times s) as [|[|n]]; [lia|lia|]. cbn [repeat List.concat] in N. rewrite !map_app in N.
  apply nodup_app in N as (_ & _ & N).
  assert (Z : forall e, ~ In e (map fst (map (entry_of "header") (reqHeaders_of es)) ++ map fst (map (entry_of "query") (queries_of es)))%list).
  { intros e I. apply (N e I). rewrite in_app_iff. now left. }
  destruct RD as [RD|RD]; [destruct (reqHeaders_of es) as [|p l]|destruct (queries_of es) as [|p l]]; auto; eapply Z; rewrite in_app_iff; [left|right]; left; reflexivity.
Qed.
Print Assumptions C86_several.

(** ** An example: one handler shows an item, another takes one *)
Definition thing_result : Result :=
  mkRes "struct" (Some "app") "Item" false [] None "" "" "" "" 0
    [("Name", mkRes "string" None "" false [] None "" "" "" "" 0 [] (fst (ParseStructTag "Name" "json:""name""")) [] "")] [] [] "".
Definition thing_arg : arg := mkArg None (fun _ => Err "value not retrievable") (fun _ => ([thing_result], Ok (res "Item" (Some "app")))).
Definition thing_funcs : list func :=
  [gfunc "Shows an item." [does (gin "Query" [lit_arg "unit"]); does (gin "JSON" [lit_arg "200"; thing_arg])];
   gfunc "Adds an item." [does (gin "BindJSON" [thing_arg]); does (gin "Status" [lit_arg "201"])]].
Definition add_handler : fdecl := mkFD "Add" (fun _ => 20%Z) 1 [].
Definition thing_program : string -> program := fun _ => prog_of thing_funcs [handle; add_handler].
Definition thing_env : Env :=
  mkEnv no_fault (fun _ _ => Some "h.go") (fun _ _ => false)
    (fun _ _ routes comps => GinParseRoutes 5 (prog_of thing_funcs [handle; add_handler]) routes comps) (fun _ _ => None) plain_orders.
Definition show_entry : GinRoute := mkGin "GET" "/items/:id" "app.Handle" "/src/app/h.go" 10.
Definition add_entry : GinRoute := mkGin "POST" "/items" "app.Add" "/src/app/h.go" 20.
Definition thing_service : Service :=
  New [WithGinInput (Some [show_entry; add_entry]); WithConfig (Some shop_config); WithOpenAPIOutput "api.json"].
Definition thing_ids (i : GinRoute) : option string := if String.eqb (gi_method i) "GET" then Some "Handle" else Some "Add".
Definition thing_type : Field := ParseResultToField (res "Item" (Some "app")).

Lemma show_behaves s' : behaves thing_env thing_program ex_world s' show_entry (Some "Handle")
  [EQuery (str_param "unit" false false); EReturn (mkRet 200 "application/json" thing_type)].
Proof.
  exists "h.go", 0, 0, "c", true, [thing_result], false. split; [reflexivity|]. split; [discriminate|]. intros main _. split; [|split; [reflexivity|]].
  - exists "app", "Handle", [], [("/src/app/h.go", 0, [handle; add_handler])], [], "/src/app/h.go", [], handle, [add_handler], [].
    split; [reflexivity|]. split; [reflexivity|]. split; [now repeat constructor|]. split; [constructor|].
    split; [reflexivity|]. split; [reflexivity|]. split; [reflexivity|]. split; [intros x []|].
    split; [reflexivity|]. split; [intros d' [[]|[<-|[]]]; discriminate|]. left. repeat split.
  - apply doc_plain.
    apply (docs_cons _ _ "c" 0 _ _ _ [EQuery (str_param "unit" false false)] [] false [EReturn (mkRet 200 "application/json" thing_type)] [thing_result]).
    { apply gin_documents; [reflexivity|]. eapply (gc_read 0 "Query" (fun n => EQuery (str_param n false false))); [now left|reflexivity]. }
    apply docs_one. apply gin_documents; [reflexivity|]. eapply (gc_render 0 "JSON" "application/json"); [now left|reflexivity|reflexivity|reflexivity].
Qed.

Lemma add_behaves s' : behaves thing_env thing_program ex_world s' add_entry (Some "Add")
  [EBody (body_to "application/json" thing_type); EReturn (mkRet 201 "" (field_of_type "nil"))].
Proof.
  exists "h.go", 0, 1, "c", true, [thing_result], false. split; [reflexivity|]. split; [discriminate|]. intros main _. split; [|split; [reflexivity|]].
  - exists "app", "Add", [], [("/src/app/h.go", 0, [handle; add_handler])], [], "/src/app/h.go", [handle], add_handler, [], [].
    split; [reflexivity|]. split; [reflexivity|]. split; [now repeat constructor|]. split; [constructor|].
    split; [reflexivity|]. split; [reflexivity|]. split; [reflexivity|]. split; [intros x []|].
    split; [reflexivity|]. split; [intros d' [[<-|[]]|[]]; discriminate|]. left. repeat split.
  - apply doc_plain.
    apply (docs_cons _ _ "c" 0 _ _ _ [EBody (body_to "application/json" thing_type)] [thing_result] false [EReturn (mkRet 201 "" (field_of_type "nil"))] []).
    { apply gin_documents; [reflexivity|]. eapply (gc_bind 0 "BindJSON" (fun t => [EBody (body_to "application/json" t)])); [cbn; auto 20|reflexivity]. }
    apply docs_one. apply gin_documents; [reflexivity|]. eapply (gc_answer 0 "Status" "nil" ""); [cbn; tauto|reflexivity|reflexivity].
Qed.

Lemma things_sound s s' : (forall i, offered s i <-> i = show_entry \/ i = add_entry) -> sound_routers thing_env thing_program ex_world s s' thing_ids.
Proof.
  intros OF'. assert (OF := fun i => proj1 (OF' i)). split.
  - exists show_entry. apply OF'. auto.
  - intros i I. destruct (OF i I) as [-> | ->].
    + split; [repeat constructor|]. split; [eexists; reflexivity|]. split; [reflexivity|]. intros ps H.
      destruct (extract_exact "/items/:id") as (ps' & H' & E). rewrite (seg_params_fun _ _ _ H H').
      assert (X : map snd ps' = map p_name (map spec_param ps')) by (rewrite map_map; apply map_ext; intros []; reflexivity).
      rewrite X, <- E. vm_compute. repeat constructor. intros [].
    + split; [repeat constructor|]. split; [eexists; reflexivity|]. split; [reflexivity|]. intros ps H.
      destruct (extract_exact "/items") as (ps' & H' & E). rewrite (seg_params_fun _ _ _ H H').
      assert (X : map snd ps' = map p_name (map spec_param ps')) by (rewrite map_map; apply map_ext; intros []; reflexivity).
      rewrite X, <- E. vm_compute. constructor.
  - intros i I. destruct (OF i I) as [-> | ->]; eexists; (split; [exact (show_behaves s') || exact (add_behaves s')|]).
    + split; try reflexivity; cbn [queries_of reqHeaders_of respHeaders_of bodies_of returns_of flat_map app].
      * split; constructor.
      * left. split; repeat constructor; try discriminate; cbn; intuition discriminate.
      * constructor.
      * constructor.
      * repeat constructor; cbn; try discriminate; lia.
      * discriminate.
    + split; try reflexivity; cbn [queries_of reqHeaders_of respHeaders_of bodies_of returns_of flat_map app].
      * split; constructor.
      * left. split; constructor.
      * constructor.
      * repeat constructor; cbn; discriminate.
      * repeat constructor; cbn; try discriminate; lia.
      * discriminate.
  - intros i i' I I' E. destruct (OF i I) as [-> | ->], (OF i' I') as [-> | ->]; try reflexivity; vm_compute in E; discriminate E.
  - intros i i' id I I' E E' _. destruct (OF i I) as [-> | ->], (OF i' I') as [-> | ->]; try (split; reflexivity); cbn in E, E'; congruence.
Qed.

Definition thing_run := Parse thing_env thing_service ex_world.
Lemma ended {A B C} (x : A * B * C) a : fst (fst x) = a -> x = (a, snd (fst x), snd x).
Proof. intros <-. now destruct x as [[p q] r]. Qed.
Lemma thing_ok : Parse thing_env thing_service ex_world = (Ok tt, snd (fst thing_run), snd thing_run).
Proof. unfold thing_run. apply ended. vm_compute. reflexivity. Qed.

Definition thing_routes : list Route := [entry_route show_entry "h.go"; entry_route add_entry "h.go"].
Definition thing_comps : list Field :=
  match GinParseRoutes 5 (thing_program "") thing_routes [] with Ok (_, c, _) => c | _ => [] end.
Lemma thing_found s' components : found thing_env 5 thing_program thing_service ex_world s' components -> components = thing_comps.
Proof.
  intros (main & rs & routes & _ & C & E).
  assert (R : rs = thing_routes).
  { clear E. inversion C as [|i is rs1 p A R C1|i is rs1 A]; subst; [|exfalso; apply A; intros d []]. cbn in R. injection R as <-.
    inversion C1 as [|i is rs2 p A1 R1 C2|i is rs2 A1]; subst; [|exfalso; apply A1; intros d []]. cbn in R1. injection R1 as <-.
    inversion C2; subst. reflexivity. }
  subst rs. unfold thing_comps. change (thing_program "") with (thing_program main). now rewrite E.
Qed.

Definition thing_component_field : Field := scomp "app" "Item" [tfield "string" "Name" "json:""name"""].
Lemma thing_component_sound : sound_components (sv_customTypes thing_service) [thing_component_field].
Proof.
  set (c := thing_component_field).
  assert (PC : parsed_components [c]) by (intros c0 [<-|[]]; parse_fields).
  split; [exact PC| | | |].
  + split; [intros c0 [<-|[]]; reflexivity|]. intros c1 c2 t [<-|[]] [<-|[]] _. cbn. discriminate.
  + repeat constructor. intros [].
  + intros c0 [<-|[]]. apply uniform_covered; [apply PC; now left|]. intros k f k' f' t [E|[]] [E'|[]]. injection E as <- <-. injection E' as <- <-. auto.
  + constructor; [|constructor]. apply flat_sound.
    * plain_node.
    * repeat constructor; try discriminate.
    * repeat constructor; discriminate.
    * cbn. unfold path_char, key_char. cbn. repeat split; left; lia.
    * cbn. unfold key_char. cbn. repeat split; lia.
Qed.

Example C86_nontrivial : let s := thing_service in let s' := snd (fst thing_run) in
  sane ex_world /\ kind_at (work_dir s ex_world) (w_fs ex_world) = Some KDir /\ fresh s /\ analyses thing_env 5 thing_program /\ served_once s /\
  valid_orders (e_orders thing_env) /\ sv_memo s = None /\ w_names ex_world = [] /\
  (exists input o, sv_inputs s = [input] /\ in_parse input = PaGin /\ sv_outputs s = [o] /\ out_generate o = GeOpenAPI "api.json") /\
  left_alone s ex_world [] (document_place s ex_world "api.json") /\
  Parse thing_env s ex_world = (Ok tt, s', snd thing_run) /\
  sound_routers thing_env thing_program ex_world s s' thing_ids /\ sound_mapping (sv_customTypes s) /\
  (forall components, found thing_env 5 thing_program s ex_world s' components -> components <> [] /\
     sound_components (sv_customTypes s) (cleanComponents (sv_tempMain s') components)).
Proof.
  intros s s'. split; [exact ex_sane|]. split; [reflexivity|]. split; [repeat split|]. split; [intros m; split; reflexivity|].
  split. { unfold served_once. cbn. repeat constructor; cbn; intuition discriminate. }
  split; [apply plain_orders_valid|]. split; [reflexivity|]. split; [reflexivity|].
  split. { eexists _, _. repeat split. }
  split. { split; [intros o []|]. split; [|discriminate]. intros (r & E). vm_compute in E. discriminate E. }
  split; [exact thing_ok|].
  assert (OF : forall i, offered s i -> i = show_entry \/ i = add_entry).
  { intros i (I & _). cbn in I. destruct I as [<-|[<-|[]]]; auto. }
  split; [apply things_sound; intros i; split; [apply OF|intros [-> | ->]; (split; [cbn; auto|intros d []])]|split].
  - intros k tf [].
  - intros components F. apply thing_found in F. subst components.
    assert (C : thing_comps = [ParseResultToField thing_result]) by (vm_compute; reflexivity). rewrite C. split; [discriminate|].
    assert (K : cleanComponents (sv_tempMain s') [ParseResultToField thing_result] = [thing_component_field])
      by (vm_compute; reflexivity).
    rewrite K. exact thing_component_sound.
Qed.

(** The source of the example is sound as C86_source_partial asks; its one component is the item. *)
Lemma leaf_calls k x : S_Parse.occurs k (does x) -> k = x.
Proof. intros O. inversion O as [|c' ch n I O']; subst; auto. destruct I as [<-|[]]. inversion O' as [|? ? ? I]; subst. destruct I. Qed.
Lemma thing_component main c : component_of (thing_program main) c <-> c = ParseResultToField thing_result.
Proof.
  split.
  - intros (g & k & f & name & a & r & O & _ & A & R & -> & _). cbn [thing_program prog_of pr_funcs] in O.
    assert (X : forall xs, S_Parse.occurs k (Node None (map does xs)) -> In k xs).
    { intros xs O'. inversion O' as [|c' ch n I O'']; subst. apply in_map_iff in I as (y & <- & I). apply leaf_calls in O''. now subst. }
    destruct g as [|[|g]]; cbn [nth thing_funcs gfunc fn_body] in O.
    + apply (X [gin "Query" [lit_arg "unit"]; gin "JSON" [lit_arg "200"; thing_arg]]) in O.
      destruct O as [<-|[<-|[]]]; cbn in A; repeat destruct A as [<-|A]; try destruct A; cbn in R; try tauto. now destruct R as [<-|[]].
    + apply (X [gin "BindJSON" [thing_arg]; gin "Status" [lit_arg "201"]]) in O.
      destruct O as [<-|[<-|[]]]; cbn in A; repeat destruct A as [<-|A]; try destruct A; cbn in R; try tauto. now destruct R as [<-|[]].
    + destruct g; apply (X []) in O; destruct O.
  - intros ->. exists 1, (gin "BindJSON" [thing_arg]), 0, "BindJSON", thing_arg, thing_result. split; [|repeat split; try (now left); discriminate].
    eapply S_Parse.oc_in; [now left|constructor].
Qed.
Example C86_source_nontrivial : forall main, let temp := sv_tempMain (snd (fst thing_run)) in
  sound_types (sv_customTypes thing_service) temp (thing_program main) /\ exists c, component_of (thing_program main) c.
Proof.
  intros main temp. assert (H := fun c => proj1 (thing_component main c)).
  assert (K : cleanField temp (ParseResultToField thing_result) = thing_component_field) by (vm_compute; reflexivity).
  destruct thing_component_sound as [C1 C2 C3 C4 C5]. assert (I : In thing_component_field [thing_component_field]) by now left.
  split; [split|eexists; now apply thing_component].
  - intros c E. apply H in E. subst. discriminate.
  - intros c E. apply H in E. subst. reflexivity.
  - intros c E. apply H in E. subst. rewrite K. auto.
  - intros c E. apply H in E. subst. rewrite K. auto.
  - intros c E. apply H in E. subst. rewrite K. now inversion C5.
  - intros c1 c2 t E1 E2 T. apply H in E1, E2. subst. rewrite K. now apply C2.
Qed.

(** The document of the example is valid, so C86_needed applies to it as well. *)
Example C86_needed_nontrivial : exists yaml d,
  kind_at (document_place thing_service ex_world "api.json") (w_fs (snd thing_run)) = Some (KFile (CDocument yaml d)) /\
  forall float, valid_openapi (document_json float d).
Proof.
  destruct C86_nontrivial as (H1 & H2 & H3 & H4 & H5 & H6 & H7 & H8 & (input & o & I1 & I2 & I3 & I4) & H9 & H10 & H11 & H12 & _).
  destruct (C86_source_partial thing_env 5 thing_program thing_service ex_world _ _ input [] o [] "api.json" thing_ids H1 H2 H3 H4 H5 H6 I1 I2 H7 H8 I3
              (Forall_nil _) I4 H9 H10 H11 H12 (fun main _ => proj1 (C86_source_nontrivial main))) as (yaml & d & K & V & _).
  exists yaml, d. auto.
Qed.

(** Refuted: a run with a handler that does not answer leaves a document that is not valid. *)
Definition silent_program : string -> program := fun _ => prog_of [gfunc "" []] [handle].
Definition silent_env : Env :=
  mkEnv no_fault (fun _ _ => Some "h.go") (fun _ _ => false)
    (fun _ _ routes comps => GinParseRoutes 5 (prog_of [gfunc "" []] [handle]) routes comps) (fun _ _ => None) plain_orders.
Definition silent_service : Service :=
  New [WithGinInput (Some [show_entry]); WithConfig (Some shop_config); WithOpenAPIOutput "api.json"].
Definition silent_run := Parse silent_env silent_service ex_world.
Theorem C86_refuted : exists env fuel prog s w s' w' input o x yaml d,
  sane w /\ kind_at (work_dir s w) (w_fs w) = Some KDir /\ fresh s /\ analyses env fuel prog /\ served_once s /\ valid_orders (e_orders env) /\
  sv_inputs s = [input] /\ in_parse input = PaGin /\ sv_memo s = None /\ w_names w = [] /\
  sv_outputs s = [o] /\ out_generate o = GeOpenAPI x /\ left_alone s w [] (document_place s w x) /\
  Parse env s w = (Ok tt, s', w') /\ kind_at (document_place s w x) (w_fs w') = Some (KFile (CDocument yaml d)) /\
  forall float, ~ valid_openapi (document_json float d).
Proof.
  exists silent_env, 5, silent_program, silent_service, ex_world, (snd (fst silent_run)), (snd silent_run).
  eexists _, _, "api.json", _, _.
  split; [exact ex_sane|]. split; [reflexivity|]. split; [repeat split|]. split; [intros m; split; reflexivity|].
  split. { unfold served_once. cbn. repeat constructor; cbn; intuition discriminate. }
  split; [apply plain_orders_valid|]. split; [reflexivity|]. split; [reflexivity|]. split; [reflexivity|]. split; [reflexivity|]. split; [reflexivity|]. split; [reflexivity|].
  split. { split; [intros o []|]. split; [|discriminate]. intros (r & E). vm_compute in E. discriminate E. }
  split. { unfold silent_run. apply ended. vm_compute. reflexivity. }
  split; [vm_compute; reflexivity|].
  intros float V. apply document_inv in V. destruct V as (V1 & V2 & V3 & V4 & V5). the_get V2 X. destruct X as (X & _). now apply X.
Qed.
Print Assumptions C86_refuted.

(** Refuted for sound routers that are two inputs: each analyses the routes of both, so a parameter is listed twice (C84). *)
Definition halves_service : Service :=
  New [WithGinInput (Some [show_entry]); WithGinInput (Some [add_entry]); WithConfig (Some shop_config); WithOpenAPIOutput "api.json"].
Definition halves_run := Parse thing_env halves_service ex_world.
Theorem C86_two_refuted : exists env fuel prog s w s' w' ids o x yaml d,
  sane w /\ kind_at (work_dir s w) (w_fs w) = Some KDir /\ fresh s /\ analyses env fuel prog /\ served_once s /\ valid_orders (e_orders env) /\
  Forall (fun input => in_parse input = PaGin) (sv_inputs s) /\ List.length (sv_inputs s) = 2 /\ sv_memo s = None /\ w_names w = [] /\
  sv_outputs s = [o] /\ out_generate o = GeOpenAPI x /\ left_alone s w [] (document_place s w x) /\
  Parse env s w = (Ok tt, s', w') /\ sound_routers env prog w s s' ids /\
  kind_at (document_place s w x) (w_fs w') = Some (KFile (CDocument yaml d)) /\
  forall float, ~ valid_openapi (document_json float d).
Proof.
  exists thing_env, 5, thing_program, halves_service, ex_world, (snd (fst halves_run)), (snd halves_run), thing_ids.
  eexists _, "api.json", _, _.
  split; [exact ex_sane|]. split; [reflexivity|]. split; [repeat split|]. split; [intros m; split; reflexivity|].
  split. { unfold served_once. cbn. repeat constructor; cbn; intuition discriminate. }
  split; [apply plain_orders_valid|]. split; [repeat constructor|]. split; [reflexivity|]. split; [reflexivity|]. split; [reflexivity|]. split; [reflexivity|]. split; [reflexivity|].
  split. { split; [intros o []|]. split; [|discriminate]. intros (r & E). vm_compute in E. discriminate E. }
  split. { unfold halves_run. apply ended. vm_compute. reflexivity. }
  split. { apply things_sound. intros i. split; [intros (I & _); cbn in I; destruct I as [<-|[<-|[]]]; auto|intros [-> | ->]; (split; [cbn; auto|intros d []])]. }
  split; [vm_compute; reflexivity|].
  intros float V. apply document_inv in V. destruct V as (V1 & V2 & V3 & V4 & V5).
  pose proof (V2 _ _ "GET" _ (or_intror (or_introl eq_refl)) (or_introl eq_refl) eq_refl) as X. apply operation_inv in X. destruct X as (_ & _ & X & _).
  vm_compute in X. inversion_clear X as [|? ? N1 X1]. inversion_clear X1 as [|? ? N2 X2]. apply N2. left. reflexivity.
Qed.
Print Assumptions C86_two_refuted.

(** The hypotheses of C86_several for these routers. *)
Example C86_several_nontrivial : let s := halves_service in
  fresh s /\ served_once s /\ (forall i, offered s i -> gin_path (gi_path i)) /\ 1 < times s /\
  Parse thing_env s ex_world = (Ok tt, snd (fst halves_run), snd halves_run) /\
  (forall main g, fn_doc (pr_funcs (thing_program main) g) = fn_doc (pr_funcs (thing_program "") g)) /\
  exists i id es, offered s i /\ plain_method (gi_method i) /\ behaves thing_env thing_program ex_world (snd (fst halves_run)) i id es /\
    unbound_events es /\ queries_of es <> [].
Proof.
  intros s. split; [repeat split|]. split. { unfold served_once. cbn. repeat constructor; cbn; intuition discriminate. }
  split. { intros i (I & _). cbn in I. destruct I as [<-|[<-|[]]]; repeat constructor. }
  split; [cbn; lia|]. split. { unfold halves_run. apply ended. vm_compute. reflexivity. }
  split; [reflexivity|]. exists show_entry, (Some "Handle"). eexists. split; [split; [cbn; auto|intros d []]|].
  split; [split; [cbn; auto|discriminate]|]. split; [apply show_behaves|]. split; [repeat constructor|discriminate].
Qed.
