(** Property theorems from source to document: C70. *)
From Coq Require Import List String Ascii Bool ZArith Arith Lia.
From Verif Require Import BaseStr BaseMap M_Types M_Collect M_Paths M_TypeTrav M_OpenAPI M_Parse M_Clean M_FS M_Service S_Collect S_OpenAPI S_Parse S_Paths S_Service S_Cache S_Files S_Whole S_Example.
From Verif Require Import M_Resolve S_Resolve P_Resolve M_Docs S_Docs P_Docs P_Fields P_FS P_Path P_Frame P_Mono P_Temp P_Whole P_Told S_Names Props_Files Props_Names Props_OpenAPI Props_Parse Props_Whole Props_Docs Props_Resolve.
Import ListNotations.
Local Open Scope string_scope.

(** Full statement: after a successful run the document tells of each route what the source of its handler says.
    Proved for one router, sources as in C70_route_partial, and tells as in C64. *)
Theorem C70_document_partial : forall co home packages camel f g ctx es regs last,
  no_named_pointers co -> scopes_agree co home ->
  first_context co f (fs_params (co_func co g)) ctx -> ctx <> "" -> (forall a, In a (fs_params (co_func co g)) -> sane_param co f a) ->
  says co home ctx f (fs_body (co_func co g)) es regs last ->
  exists N, forall n, N <= n ->
  forall env fuel s w s' w' input before o after x i file id,
  sane w -> kind_at (work_dir s w) (w_fs w) = Some KDir -> fresh s ->
  analyses env fuel (fun main => program_of co n (packages main) camel) -> served_once s ->
  valid_orders (e_orders env) -> (forall i, offered s i -> gin_path (gi_path i)) ->
  sv_inputs s = [input] -> in_parse input = PaGin ->
  sv_outputs s = (before ++ o :: after)%list -> out_generate o = GeOpenAPI x -> left_alone s w after (document_place s w x) ->
  offered s i -> plain_method (gi_method i) -> e_rel env ("/" ++ join "/" (w_cwd w)) (gi_file i) = Some file ->
  (forall main, main = "" \/ main = sv_tempMain s' -> handler_of (program_of co n (packages main) camel) (entry_route i file) f g id) ->
  Parse env s w = (Ok tt, s', w') ->
  exists yaml d op, kind_at (document_place s w x) (w_fs w') = Some (KFile (CDocument yaml d)) /\
    operation_at d (openapi_path (gi_path i)) (gi_method i) op /\
    tells op (gi_path i) id (fs_doc (co_func co g)) es /\
    forall c t, fs_doc (co_func co g) = Text c -> comment_text c t -> has_prefix "//" t = false -> no_outer_space t -> op_description op = t.
Proof.
  intros co home packages camel f g ctx es regs last P A Hc Hne Hs S.
  destruct (source_documents co home P A _ _ _ _ _ _ S) as (N & HN). exists N.
  intros n L env fuel s w s' w' input before o after x i file id SA HD FR AN ON VO GP EI EP EO GO LA OF PM RE HO E.
  destruct (C64_handlers_told_partial env fuel _ s w s' w' input before o after x SA HD FR AN ON VO GP EI EP EO GO LA E)
    as (yaml & d & main & K & MM & H).
  destruct (H i file f g id ctx true es regs last OF PM RE (HO main MM)) as (op & D & T); auto.
  - now apply context_named.
  - now apply HN.
  - exists yaml, d, op. split; [exact K|]. split; [exact D|]. split; [exact T|].
    intros c t Ed Ht Hp Ho.
    change (fn_doc (pr_funcs (program_of co n (packages main) camel) g)) with (fs_doc (co_func co g)) in T. rewrite Ed in T.
    exact (C69_operation_partial op _ _ c es t T Ht Hp Ho).
Qed.
Print Assumptions C70_document_partial.

(** ** An example: the handler List of C70_nontrivial served by a router, its document written to a file. *)
Definition demo_router : list GinRoute := [mkGin "GET" "/items" "app.List" "/src/app/list.go" 10].
Definition demo_service : Service :=
  New [WithGinInput (Some demo_router); WithConfig (Some shop_config); WithOpenAPIOutput "api.yaml"; WithJSONOutput "later"].
Definition demo_program (n : nat) (main : string) : program := program_of demo n demo_packages (fun s => s).
Definition demo_env (n : nat) : Env :=
  mkEnv no_fault (fun _ _ => Some "list.go") (fun _ _ => false)
    (fun _ main routes comps => GinParseRoutes 9 (demo_program n main) routes comps) (fun _ _ => None) plain_orders.

Example C70_document_nontrivial :
  let i := nth 0 demo_router (mkGin "" "" "" "" 0) in
  sane ex_world /\ kind_at (work_dir demo_service ex_world) (w_fs ex_world) = Some KDir /\ fresh demo_service /\
  (forall n, analyses (demo_env n) 9 (demo_program n)) /\ served_once demo_service /\ valid_orders (e_orders (demo_env 9)) /\
  (forall i, offered demo_service i -> gin_path (gi_path i)) /\
  (exists after, sv_outputs demo_service = api_output :: after /\ after <> [] /\
     left_alone demo_service ex_world after (document_place demo_service ex_world "api.yaml")) /\
  offered demo_service i /\ plain_method (gi_method i) /\
  (forall n main, handler_of (demo_program n main) (entry_route i "list.go") 0 0 (Some "List")) /\
  fs_doc (co_func demo 0) = Text ["// Lists the items."] /\ comment_text ["// Lists the items."] "Lists the items." /\
  exists s' w' yaml d op, Parse (demo_env 9) demo_service ex_world = (Ok tt, s', w') /\
    kind_at (document_place demo_service ex_world "api.yaml") (w_fs w') = Some (KFile (CDocument yaml d)) /\
    operation_at d "/items" "GET" op /\ op_description op = "Lists the items." /\ op_id op = "List".
Proof.
  split; [exact ex_sane|]. split; [reflexivity|]. split; [repeat split|]. split; [intros n m; split; [reflexivity|reflexivity]|].
  split. { unfold served_once. cbn. repeat constructor; cbn; intuition discriminate. }
  split; [apply plain_orders_valid|].
  split. { intros i (I & _). cbn in I. destruct I as [<-|[]]; repeat constructor. }
  split.
  { exists [mkOutput "json" (GeJSON "later") [("filePath", VStr "later")]].
    split; [reflexivity|]. split; [discriminate|]. split; [|split].
    - intros o [<-|[]]. vm_compute. discriminate.
    - intros (r & E). vm_compute in E. discriminate E.
    - discriminate. }
  split; [split; [cbn; auto|intros d []]|]. split; [split; [cbn; auto|discriminate]|].
  split; [intros n main; apply demo_handled|]. split; [reflexivity|].
  split.
  { exists ["Lists the items."], ["Lists the items."], [["Lists the items."]]. split; [apply (wr_line "Lists the items."); [reflexivity|constructor]|].
    split; [|split; [|reflexivity]].
    - constructor; [|constructor]. split; [exists ""; split; [reflexivity|exact I]|].
      intros l c E W. assert (G : String.get (String.length l) (l ++ str1 c) = Some c) by (clear; induction l; [reflexivity|exact IHl]).
      assert (L : String.length l = 15). { apply (f_equal String.length) in E. rewrite length_append in E. cbn in E. lia. }
      rewrite <- E, L in G. injection G as <-. apply whitespace_iff in W. discriminate W.
    - apply (pg_cons [] ["Lists the items."] [] []); [constructor|discriminate|repeat constructor; discriminate|auto|constructor]. constructor. }
  pose (X := Parse (demo_env 9) demo_service ex_world).
  exists (snd (fst X)), (snd X).
  assert (Y : fst (fst X) = Ok tt) by (vm_compute; reflexivity).
  assert (Z : exists yaml d op, kind_at (document_place demo_service ex_world "api.yaml") (w_fs (snd X)) = Some (KFile (CDocument yaml d)) /\
     operation_at d "/items" "GET" op /\ op_description op = "Lists the items." /\ op_id op = "List").
  { do 3 eexists. split; [vm_compute; reflexivity|]. split; [|split].
    - eexists. split; [vm_compute; reflexivity|]. vm_compute; reflexivity.
    - vm_compute; reflexivity.
    - vm_compute; reflexivity. }
  destruct Z as (yaml & d & op & Z). exists yaml, d, op. split; [|exact Z].
  fold X. rewrite <- Y. now destruct X as ((? & ?) & ?).
Qed.
