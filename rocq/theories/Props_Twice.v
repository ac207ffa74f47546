(** Runs after other runs, and runs in two halves: C41, C44. *)
From Coq Require Import List String Ascii Bool ZArith Arith Lia.
From Verif Require Import BaseStr BaseMap M_Types M_Collect M_OpenAPI M_Parse M_Clean M_FS M_Service M_Options.
From Verif Require Import S_Names S_Example S_Service S_Cache S_Files S_Twice.
From Verif Require Import P_FS P_Path P_Act P_Order P_Frame P_Cache P_Load P_Twice P_Sim P_Left P_Block P_Cli Props_Files Props_Main Props_Cache Props_Again.
Import ListNotations.
Local Open Scope string_scope.

(** C41: if a whole run, with whatever environment, succeeds, then so does the set-up with the cache, and after it the
    command line on that cache; and the tree is the same outside the directory of astra, documents and all.  For services
    with Gin inputs and JSON and OpenAPI outputs and neither custom types nor custom functions, whose texts are UTF-8.
    The second environment gives the same answers, but has no faults.  Missing are the services of the refutations below. *)
Theorem C41_same_output_partial :
  forall w eA eB s sA wA cacheFile flag,
    let base := work_dir s w in
    sane w -> sorted_tree (w_fs w) -> kind_at base (w_fs w) = Some KDir -> w_names w = [] ->
    plain_service s -> (forall q, document_place base s q -> ~ inside (base ++ [".astra"]) q) ->
    carried s -> Forall text_input (sv_inputs s) -> text_paths eB ->
    same_answers eA eB -> (forall n, e_fault eB n = None) ->
    locate (w_cwd w) cacheFile = (base ++ [".astra"; "cache.json"])%list -> has_suffix ".json" cacheFile = true ->
    locate (w_cwd w) flag = base ->
    Parse eA s w = (Ok tt, sA, wA) ->
    exists s1 w1, SetupParse eB (WithCLI s) w = (Ok tt, s1, w1) /\ w_cwd w1 = w_cwd w /\
      forall s0, exists s2 w2, cliGenerate eB cacheFile flag s0 w1 = (Ok tt, s2, w2) /\
        forall q, ~ inside (base ++ [".astra"]) q -> kind_at q (w_fs w2) = kind_at q (w_fs wA).
Proof.
  intros w eA eB s sA wA cacheFile flag base SA SO KB NM PL OUT CA TI TP AN NF LC JC LF E.
  destruct (two_halves base w eA eB s sA wA cacheFile flag SA SO KB eq_refl NM PL OUT AN NF LC JC LF E) as (s1 & w1 & E1 & CW & H).
  exists s1, w1. split; auto. split; auto. apply H. exact (setup_carried _ _ _ _ _ E1 TP TI CA).
Qed.
Print Assumptions C41_same_output_partial.

(** An analysis that finds each handler to answer with an amount of money. *)
Definition ex_amount : Field := mkField "money" "struct" "Amount" [] false false "" "" 0 "" "" "" [] [] [] "".
Definition ex_halves_env : Env :=
  mkEnv no_fault (fun _ _ => Some "main.go") (fun _ _ => false)
    (fun _ _ routes comps => Ok (map (fun r => mkRoute (rt_handler r) (rt_file r) (rt_line r) (rt_method r) (rt_path r) (rt_pathParams r)
      (rt_queryParams r) (rt_body r) [mkRet 200 "application/json" ex_amount] (rt_doc r) (rt_operationId r) (rt_reqHeaders r) (rt_respHeaders r)) routes, [ex_amount], None))
    (fun _ _ => None) plain_orders.
Definition ex_config : Config := mkConfig "title" "" "1" ("", "", "") ("", "") false "localhost" "/" 8000.
Definition ex_halves : Service := New [WithGinInput (Some ex_router); WithJSONOutput "out"; WithOpenAPIOutput "api"; WithConfig (Some ex_config)].
Definition whole (s : Service) := Parse ex_halves_env s ex_world.
Definition first_half (s : Service) := SetupParse ex_halves_env (WithCLI s) ex_world.
Definition second_half (s : Service) := cliGenerate ex_halves_env ".astra/cache.json" "." s (snd (first_half s)).

Lemma ex_sorted : sorted_tree ex_tree.
Proof. cbn. unfold msorted. repeat (constructor; cbn; auto). Qed.
Example C41_nontrivial :
  plain_service ex_halves /\ carried ex_halves /\ Forall text_input (sv_inputs ex_halves) /\ text_paths ex_halves_env /\
  (forall q, document_place ["home"] ex_halves q -> ~ inside ["home"; ".astra"] q) /\
  work_dir ex_halves ex_world = ["home"] /\ kind_at ["home"] ex_tree = Some KDir /\ sorted_tree ex_tree /\
  locate ["home"] ".astra/cache.json" = ["home"; ".astra"; "cache.json"] /\ locate ["home"] "." = ["home"] /\
  fst (fst (whole ex_halves)) = Ok tt /\ fst (fst (second_half ex_halves)) = Ok tt /\
  kind_at ["home"; "out.json"] (w_fs (snd (second_half ex_halves))) = kind_at ["home"; "out.json"] (w_fs (snd (whole ex_halves))) /\
  kind_at ["home"; "api.json"] (w_fs (snd (second_half ex_halves))) = kind_at ["home"; "api.json"] (w_fs (snd (whole ex_halves))) /\
  kind_at ["home"; "api.json"] (w_fs (snd (whole ex_halves))) <> None.
Proof.
  split.
  { split; [repeat constructor|]. split; [|repeat split].
    constructor; [exists "out"; left|constructor; [exists "api"; right|constructor]]; (split; [split; [reflexivity|split; [discriminate|reflexivity]]|reflexivity]). }
  split.
  { split; [apply Forall_cons; [txt|apply Forall_nil]|]. split.
    { apply Forall_cons; [|apply Forall_cons; [|apply Forall_nil]]; (split; [txt|]; apply Forall_cons; [split; txt|apply Forall_nil]). }
    split; [unfold carried_config, texts; cbn; repeat (apply Forall_cons; [txt|]); apply Forall_nil|]. split; constructor. }
  split.
  { apply Forall_cons; [|apply Forall_nil]. intros l [= <-]. apply Forall_cons; [|apply Forall_nil]. split; [|split]; txt. }
  split; [intros d f r [= <-]; txt|].
  split.
  { intros q (o & [<-|[<-|[]]] & Q) (r & ->); vm_compute in Q; discriminate. }
  split; [reflexivity|]. split; [reflexivity|]. split; [exact ex_sorted|].
  repeat (split; [vm_compute; reflexivity|]). vm_compute. discriminate.
Qed.

(** The types of the schemas of the document at a place. *)
Definition schema_types (q : list string) (w : World) : list (string * string * string) :=
  match kind_at q (w_fs w) with
  | Some (KFile (CDocument _ d)) => map (fun ks => (fst ks, s_type (snd ks), s_format (snd ks))) (d_schemas d)
  | _ => []
  end.

(** C41, refuted: the custom types are not in the service that completes, and the document differs. *)
Theorem C41_custom_types_refuted :
  exists env s w sA wA s1 w1 s2 w2,
    (forall n, e_fault env n = None) /\ Parse env s w = (Ok tt, sA, wA) /\
    SetupParse env (WithCLI s) w = (Ok tt, s1, w1) /\ cliGenerate env ".astra/cache.json" "." s w1 = (Ok tt, s2, w2) /\
    schema_types ["home"; "api.json"] wA = [("money.Amount", "string", "decimal")] /\
    schema_types ["home"; "api.json"] w2 = [("money.Amount", "object", "")].
Proof.
  pose (s := WithCustomTypeMappingSingle "money.Amount" "string" "decimal" ex_halves).
  pose (X := whole s). pose (Y := first_half s). pose (Z := second_half s).
  exists ex_halves_env, s, ex_world, (snd (fst X)), (snd X), (snd (fst Y)), (snd Y), (snd (fst Z)), (snd Z).
  split; [reflexivity|]. repeat (split; [vm_compute; reflexivity|]). vm_compute. reflexivity.
Qed.
Print Assumptions C41_custom_types_refuted.

(** C41, refuted: nor are the custom functions; an analysis that finds nothing without one finds nothing. *)
Theorem C41_custom_functions_refuted :
  exists env s w sA wA s1 w1 s2 w2,
    (forall n, e_fault env n = None) /\ Parse env s w = (Ok tt, sA, wA) /\
    SetupParse env (WithCLI s) w = (Ok tt, s1, w1) /\ cliGenerate env ".astra/cache.json" "." s w1 = (Ok tt, s2, w2) /\
    schema_types ["home"; "api.json"] wA = [("money.Amount", "object", "")] /\
    schema_types ["home"; "api.json"] w2 = [].
Proof.
  pose (env := mkEnv no_fault (fun _ _ => Some "main.go") (fun _ _ => false)
    (fun fs _ routes comps => Ok (routes, match fs with [] => comps | _ => [ex_amount] end, None)) (fun _ _ => None) plain_orders).
  pose (s := WithCustomFunc (fun _ _ _ _ => CuNone []) ex_halves).
  pose (X := Parse env s ex_world). pose (Y := SetupParse env (WithCLI s) ex_world). pose (Z := cliGenerate env ".astra/cache.json" "." s (snd Y)).
  exists env, s, ex_world, (snd (fst X)), (snd X), (snd (fst Y)), (snd Y), (snd (fst Z)), (snd Z).
  split; [reflexivity|]. repeat (split; [vm_compute; reflexivity|]). vm_compute. reflexivity.
Qed.
Print Assumptions C41_custom_functions_refuted.

(** C41, refuted: with an Azure output the command line never completes, whatever else the service has. *)
Theorem C41_azure_never :
  forall env s w s1 w1 o eB cacheFile flag s0 s2 w2,
    sv_cachePath s = "" -> In o (sv_outputs s) -> out_mode o = "azureFunctions" ->
    SetupParse env (WithCLI s) w = (Ok tt, s1, w1) ->
    (forall n, e_fault eB n = None) -> locate (w_cwd w1) cacheFile = cache_place s1 w1 -> has_suffix ".json" cacheFile = true ->
    cliGenerate eB cacheFile flag s0 w1 <> (Ok tt, s2, w2).
Proof.
  intros env s w s1 w1 o eB cacheFile flag s0 s2 w2 CP I M E NF LC JC G.
  destruct (setup_cached _ _ _ _ _ E eq_refl) as (wc & EC). destruct (setup_aside _ _ _ _ _ E) as (_ & _ & _ & _ & _ & CP1 & _ & SO).
  cbn in CP1. rewrite CP in CP1. change (sv_outputs (WithCLI s)) with (sv_outputs s) in SO.
  destruct (cache_ok _ _ _ _ _ EC) as (c & _ & CJ & KC). assert (Y : is_yaml (cachePath s1) = false) by (apply json_not_yaml, default_json; auto).
  rewrite Y in *. specialize (CJ eq_refl). subst c.
  destruct (cache_same_service _ _ _ _ _ _ EC) as (_ & CW).
  assert (KC1 : kind_at (locate (w_cwd w1) cacheFile) (w_fs w1) = Some (KFile (CCache false (json_service s1)))).
  { rewrite LC. unfold cache_place in *. now rewrite CW. }
  unfold cliGenerate in G. apply bind_ok in G as (wd & s3 & w3 & EW & G).
  assert (F3 : w_fs w3 = w_fs w1 /\ w_cwd w3 = w_cwd w1).
  { revert EW. destruct (negb (is_rooted flag)).
    - unfold abind, os_Getwd. rewrite NF. unfold aret. intros [= <- <- <-]. split; reflexivity.
    - unfold aret. intros [= <- <- <-]. split; reflexivity. }
  destruct F3 as (F3 & C3). rewrite <- F3, <- C3 in KC1.
  apply bind_ok in G as (u & s4 & w4 & EM & G). unfold modify in EM. injection EM as <- <- <-.
  apply bind_ok in G as (u & s5 & w5 & EL & G). rewrite (load_custom _ _ _ _ _ NF KC1) in EL.
  unfold decodeCache in EL. rewrite JC in EL. injection EL as <- <- <-.
  unfold abind at 1, service at 1 in G. apply bind_ok in G as (s6 & s7 & w7 & ER & _). unfold aoutcome in ER.
  match type of ER with (rebindOptions ?x, _, _) = _ => assert (RB : rebindOptions x = Ok s6) by congruence end.
  revert RB. match goal with |- context [loaded (json_service s1) ?n] => refine (C42_azure_never (loaded (json_service s1) n)
    (mkOutput "azureFunctions" GeNil (map (fun kv => (json_string (fst kv), json_cfgval (snd kv))) (out_config o))) _ eq_refl _) end.
  match goal with |- In _ (sv_outputs (loaded ?d ?n)) => change (sv_outputs (loaded d n)) with (map (fun mc => mkOutput (fst mc) GeNil (snd mc)) (ca_outputs d)) end.
  unfold json_service. cbn [ca_outputs]. rewrite map_map. apply in_map_iff. exists o. rewrite SO. split; auto. cbn [fst snd]. rewrite M. reflexivity.
Qed.
Print Assumptions C41_azure_never.
(** Its hypotheses are met, and a whole run of that service succeeds. *)
Definition ex_azure : Service := New [WithGinInput (Some ex_router); WithAzureFunctionsOutput "functions"].
Example C41_azure_nontrivial :
  map out_mode (sv_outputs ex_azure) = ["azureFunctions"] /\ fst (fst (whole ex_azure)) = Ok tt /\ fst (fst (first_half ex_azure)) = Ok tt /\
  locate ["home"] ".astra/cache.json" = cache_place (snd (fst (first_half ex_azure))) (snd (first_half ex_azure)).
Proof. repeat (split; [vm_compute; reflexivity|]). vm_compute. reflexivity. Qed.

(** C44: after any number of runs of ordinary services in this directory, each failed, succeeded or broken off anywhere, a
    run that succeeds on the tree from before them all succeeds too, and leaves the same outside the directory of astra,
    but for the documents of the others.  Ordinary services have the cache at its usual place and no Azure outputs; the
    refutation below is what is missing. *)
Theorem C44_later_succeeds_partial :
  forall base w0 docs w1 env s s0' w0',
    sane w0 -> sorted_tree (w_fs w0) -> kind_at base (w_fs w0) = Some KDir ->
    tried base (w_fs w0) docs (w_fs w1) -> w_cwd w1 = w_cwd w0 -> w_names w1 = w_names w0 ->
    ordinary base s w0 -> (forall q, document_place base s q -> ~ inside (base ++ [".astra"]) q) ->
    (forall n, e_fault env n = None) -> Parse env s w0 = (Ok tt, s0', w0') ->
    exists s1' w1', Parse env s w1 = (Ok tt, s1', w1') /\
      forall q, ~ inside (base ++ [".astra"]) q -> document_place base s q \/ ~ docs q -> kind_at q (w_fs w1') = kind_at q (w_fs w0').
Proof.
  intros base w0 docs w1 env s s0' w0' SA SO KB T CW NM OR OUT NF E.
  destruct (tried_later base w0 docs w1 env s s0' w0' SA SO KB T CW NM OR OUT NF E) as (s1' & w1' & E1 & H).
  exists s1', w1'. split; auto. intros q N D. destruct (H q N) as [|((D1 & D2) & _)]; [congruence|tauto].
Qed.
Print Assumptions C44_later_succeeds_partial.

(** Two failed runs, one of them of another service, and what they leave. *)
Definition ex_failed1 := Parse (ex_env (fault_at 8)) (WithCache ex_single) ex_world.
Definition ex_failed2 := Parse (ex_env (fun n => if Nat.leb 30 n then Some (CBytes "torn") else None)) ex_service (snd ex_failed1).
Example C44_nontrivial :
  fst (fst ex_failed1) <> Ok tt /\ fst (fst ex_failed2) <> Ok tt /\ kind_at ["home"; ".astra"] (w_fs (snd ex_failed2)) <> None /\
  (exists docs, tried ["home"] ex_tree docs (w_fs (snd ex_failed2))) /\ ordinary ["home"] ex_single ex_world /\
  (forall q, document_place ["home"] ex_single q -> ~ inside ["home"; ".astra"] q) /\
  fst (fst (Parse (ex_env no_fault) ex_single ex_world)) = Ok tt.
Proof.
  split; [vm_compute; discriminate|]. split; [vm_compute; discriminate|]. split; [vm_compute; discriminate|].
  assert (NJ : forall x, ~ is_azure (mkOutput "json" (GeJSON x) [("filePath", VStr x)])) by (intros x (d & H); discriminate).
  split; [|split; [|split]].
  - eexists. apply tried_run with (env := ex_env (fun n => if Nat.leb 30 n then Some (CBytes "torn") else None)) (s := ex_service)
      (w := snd ex_failed1) (r := fst (fst ex_failed2)) (s' := snd (fst ex_failed2)) (w' := snd ex_failed2).
    + apply tried_run with (env := ex_env (fault_at 8)) (s := WithCache ex_single) (w := ex_world) (r := fst (fst ex_failed1))
        (s' := snd (fst ex_failed1)) (w' := snd ex_failed1).
      * apply tried_none.
      * exact (proj1 ex_sane).
      * split; [reflexivity|]. split; [reflexivity|]. repeat constructor. apply NJ.
      * left. unfold ex_failed1. destruct (Parse _ _ _) as ((? & ?) & ?). reflexivity.
      * left. reflexivity.
    + assert (C : w_cwd (snd ex_failed1) = ["home"]) by (vm_compute; reflexivity). rewrite C. exact (proj1 ex_sane).
    + split; [vm_compute; reflexivity|]. split; [discriminate|]. repeat constructor; apply NJ.
    + left. unfold ex_failed2. destruct (Parse _ _ _) as ((? & ?) & ?). reflexivity.
    + left. reflexivity.
  - split; [reflexivity|]. split; [discriminate|]. repeat constructor. apply NJ.
  - intros q (o & [<-|[]] & Q) (r & ->); vm_compute in Q; discriminate.
  - vm_compute. reflexivity.
Qed.

(** C44, refuted: a run with an Azure output that fails after its temporary directory is made leaves it, and the next run
    finds it and fails, though it would succeed on the tree from before. *)
Theorem C44_refuted :
  exists env env' s w r s1 w1 s2 w2 e s3 w3,
    Parse env s w = (r, s1, w1) /\ r <> Ok tt /\ (forall n, e_fault env' n = None) /\
    Parse env' s w = (Ok tt, s2, w2) /\ Parse env' s w1 = (Err e, s3, w3).
Proof.
  pose (env := ex_env (fault_at 14)). pose (env' := ex_env no_fault).
  pose (X := Parse env ex_azure ex_world). pose (Y := Parse env' ex_azure ex_world). pose (Z := Parse env' ex_azure (snd X)).
  pose (e := match fst (fst Z) with Err e => e | _ => "" end).
  exists env, env', ex_azure, ex_world, (fst (fst X)), (snd (fst X)), (snd X), (snd (fst Y)), (snd Y), e, (snd (fst Z)), (snd Z).
  split; [unfold X; destruct (Parse _ _ _) as ((? & ?) & ?); reflexivity|]. split; [vm_compute; discriminate|]. split; [reflexivity|].
  split; vm_compute; reflexivity.
Qed.
Print Assumptions C44_refuted.

(** And that is so for every service with an Azure output, in every environment, as long as the directory is there. *)
Theorem C44_azure_blocked :
  forall env s w,
    sane w -> (sv_cacheEnabled s = true -> sv_cachePath s = "") -> kind_at (work_dir s w) (w_fs w) = Some KDir ->
    kind_at (work_dir s w ++ [".astra"; "azure"]) (w_fs w) <> None -> (exists o, In o (sv_outputs s) /\ is_azure o) ->
    forall s' w', Parse env s w <> (Ok tt, s', w').
Proof. intros env s w SA C D L A s' w'. exact (blocked env s w SA C D L s' w' A). Qed.
Print Assumptions C44_azure_blocked.
Example C44_azure_nontrivial :
  let w := snd (Parse (ex_env (fault_at 14)) ex_azure ex_world) in
  kind_at ["home"; ".astra"; "azure"] (w_fs w) = Some KDir /\ work_dir ex_azure w = ["home"] /\ kind_at ["home"] (w_fs w) = Some KDir /\
  Exists is_azure (sv_outputs ex_azure).
Proof. split; [vm_compute; reflexivity|]. split; [vm_compute; reflexivity|]. split; [vm_compute; reflexivity|]. constructor. eexists. reflexivity. Qed.
