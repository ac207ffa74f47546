(** Caching, loading and rebinding: C38, C39, C40, C42. *)
From Coq Require Import List String Ascii Bool ZArith Arith.
From Verif Require Import BaseStr BaseMap M_Types M_Collect M_OpenAPI M_Parse M_Clean M_FS M_Service.
From Verif Require Import S_Names S_Example S_Service S_Cache S_Files P_FS P_Path P_Act P_Order P_Frame P_Cache P_Load.
Import ListNotations.
Local Open Scope string_scope.

(** C38, for data that JSON carries and a JSON cache: a loader with any state of its own, looking at the same place, comes
    to have the cached inputs, outputs, configuration, routes and components, keeps everything else, and leaves the
    files alone.  Missing: integers in enumerations, text that is not UTF-8, the custom type mapping (all refuted below), and YAML. *)
Theorem C38_loaded_partial :
  forall env s w s1 w1 s0,
    (forall n, e_fault env n = None) -> carried s -> has_suffix ".json" (cache_name s) = true ->
    sv_cachePath s0 = sv_cachePath s -> sv_workDir s0 = sv_workDir s ->
    Cache env s w = (Ok tt, s1, w1) ->
    s1 = s /\
    exists s2 w2, LoadCache env s0 w1 = (Ok tt, s2, w2) /\ same_cached s s2 /\ same_uncached s0 s2 /\ w_fs w2 = w_fs w1.
Proof.
  intros env s w s1 w1 s0 NF CA J C W E. split; [exact (proj1 (cache_same_service _ _ _ _ _ _ E))|].
  destruct (load_after env s w s1 w1 s0 NF E C W) as (c & _ & B & w2 & L).
  rewrite <- name_json in J. rewrite (json_not_yaml _ J) in B, L. specialize (B eq_refl). subst c.
  unfold decodeCache in L. rewrite J in L. exists (loaded (json_service s) s0), w2.
  split; [exact L|]. split.
  - destruct (carried_service s CA) as (A1 & A2 & A3 & A4 & A5). unfold same_cached, loaded. cbn -[json_service].
    rewrite A1, A2, A3, A4, A5, !map_map. repeat split.
  - split; [repeat split|]. exact (proj1 (load_frame _ _ _ _ _ _ L)).
Qed.
Print Assumptions C38_loaded_partial.

(** C38: caching does not change the service, whatever happens. *)
Theorem C38_caching_keeps_service :
  forall env s w r s' w', Cache env s w = (r, s', w') -> s' = s.
Proof. intros env s w r s' w' E. exact (proj1 (cache_same_service _ _ _ _ _ _ E)). Qed.
Print Assumptions C38_caching_keeps_service.

(** C38: a load that does not succeed leaves the service as it was; no load touches a file or anything that is not cached. *)
Theorem C38_failed_load :
  forall env s w r s' w',
    LoadCache env s w = (r, s', w') \/ (exists p, LoadCacheFromCustomPath env p s w = (r, s', w')) ->
    (r <> Ok tt -> s' = s) /\ w_fs w' = w_fs w /\
    same_uncached s s' /\ sv_customTypes s' = sv_customTypes s /\ sv_memo s' = sv_memo s.
Proof.
  intros env s w r s' w' H.
  assert (X : w_fs w' = w_fs w /\ ((r <> Ok tt /\ s' = s) \/ (r = Ok tt /\ exists d, s' = loaded d s))).
  { destruct H as [H|(p & H)]; [exact (load_frame _ _ _ _ _ _ H)|exact (load_custom_frame _ _ _ _ _ _ _ H)]. }
  destruct X as (F & [(N & ->)|(-> & d & ->)]).
  - split; auto. split; auto. repeat split.
  - split; [congruence|]. split; auto. repeat split.
Qed.
Print Assumptions C38_failed_load.

(** A service with a route, nested components and a configuration; the hypotheses of C38_loaded_partial hold of it. *)
Definition ex_field (name : string) (sf : list (string * Field)) : Field :=
  mkField "example.com/app" "struct" name [EStr "a"; EBool true] true false "" "" 0 "" "" "" sf
    [("json", mkBT "id" false false)] [] "a comment".
Definition ex_cached : Service :=
  with_results
    [mkRoute "main.ping" "main.go" 3 "GET" "/ping/:id" [mkParam "id" (ex_field "T" []) true false false false] [] []
       [mkRet 200 "application/json" (ex_field "T" [("inner", ex_field "U" [])])] "" "ping" [] []]
    [ex_field "T" [("inner", ex_field "U" [])]]
    (WithCustomCachePath "cache.json"
      (WithConfig (Some (mkConfig "title" "" "1" ("", "", "") ("", "") false "localhost" "/" 8000))
         (New [WithGinInput (Some ex_router); WithOpenAPIOutput "out"; WithJSONOutput "out"]))).

Lemma utf8_json_iff s : json_string s = s -> utf8 s.
Proof. apply json_string_iff. Qed.
Ltac txt := apply utf8_json_iff; vm_compute; reflexivity.
Lemma ex_field_carried name sf :
  json_string name = name -> fold_right (fun kf acc => utf8 (fst kf) /\ carried_field (snd kf) /\ acc) True sf ->
  carried_field (ex_field name sf).
Proof.
  intros N S. cbn [ex_field carried_field].
  split; [unfold texts; repeat (apply Forall_cons; [first [txt|now apply utf8_json_iff]|]); apply Forall_nil|].
  split; [apply Forall_cons; [cbn; txt|apply Forall_cons; [exact I|apply Forall_nil]]|].
  split; [exact S|]. split; [apply Forall_cons; [cbn; split; txt|apply Forall_nil]|apply Forall_nil].
Qed.
Lemma ex_carried : carried ex_cached.
Proof.
  assert (FU : carried_field (ex_field "U" [])) by (apply ex_field_carried; [reflexivity|exact I]).
  assert (FT0 : carried_field (ex_field "T" [])) by (apply ex_field_carried; [reflexivity|exact I]).
  assert (FT : carried_field (ex_field "T" [("inner", ex_field "U" [])])).
  { apply ex_field_carried; [reflexivity|]. cbn [fold_right fst snd]. split; [txt|]. split; [exact FU|exact I]. }
  split; [apply Forall_cons; [txt|apply Forall_nil]|].
  split.
  { apply Forall_cons; [|apply Forall_cons; [|apply Forall_nil]];
      (split; [txt|apply Forall_cons; [split; txt|apply Forall_nil]]). }
  split; [cbn; unfold carried_config, texts; repeat (apply Forall_cons; [txt|]); apply Forall_nil|].
  split; [|apply Forall_cons; [exact FT|apply Forall_nil]].
  apply Forall_cons; [|apply Forall_nil]. unfold carried_route. cbn [rt_handler rt_file rt_method rt_path rt_doc rt_operationId
    rt_pathParams rt_queryParams rt_body rt_returns rt_reqHeaders rt_respHeaders].
  split; [unfold texts; repeat (apply Forall_cons; [txt|]); apply Forall_nil|].
  split; [apply Forall_cons; [split; [txt|exact FT0]|apply Forall_nil]|].
  split; [apply Forall_nil|]. split; [apply Forall_nil|].
  split; [apply Forall_cons; [split; [txt|exact FT]|apply Forall_nil]|]. split; apply Forall_nil.
Qed.
Example C38_nontrivial :
  carried ex_cached /\ has_suffix ".json" (cache_name ex_cached) = true /\
  fst (fst (Cache (ex_env no_fault) ex_cached ex_world)) = Ok tt.
Proof. split; [exact ex_carried|]. split; reflexivity. Qed.

(** Caching and loading again, by a fresh service that looks at the same place. *)
Definition cached_and_loaded (env : Env) (s : Service) (w : World) (s2 : Service) : Prop :=
  exists s1 w1 w2, Cache env s w = (Ok tt, s1, w1) /\
    LoadCache env (with_workDir (sv_workDir s) (WithCustomCachePath (sv_cachePath s) (New []))) w1 = (Ok tt, s2, w2).

(** C38, refuted: the custom type mapping is written but not restored. *)
Theorem C38_custom_types_refuted :
  exists env s w s2,
    (forall n, e_fault env n = None) /\ carried s /\ cached_and_loaded env s w s2 /\ sv_customTypes s2 <> sv_customTypes s.
Proof.
  pose (s := with_customTypes [("money.Amount", mkTF "string" "decimal")] ex_cached).
  pose (X := Cache (ex_env no_fault) s ex_world).
  pose (Y := LoadCache (ex_env no_fault) (with_workDir (sv_workDir s) (WithCustomCachePath (sv_cachePath s) (New []))) (snd X)).
  exists (ex_env no_fault), s, ex_world, (snd (fst Y)).
  split; [reflexivity|]. split; [exact ex_carried|]. split.
  - exists (snd (fst X)), (snd X), (snd Y). split; vm_compute; reflexivity.
  - vm_compute. discriminate.
Qed.
Print Assumptions C38_custom_types_refuted.

(** C38, refuted: an integer of an enumeration comes back as a floating point number. *)
Definition ex_enum (e : enumval) : Service :=
  with_results [] [mkField "example.com/app" "int" "Level" [e] false false "" "" 0 "" "" "" [] [] [] ""]
    (WithCustomCachePath "cache.json" (New [])).
Theorem C38_enum_refuted :
  exists env s w s2,
    (forall n, e_fault env n = None) /\ map f_enum (sv_components s) = [[EInt 9007199254740993]] /\
    cached_and_loaded env s w s2 /\ map f_enum (sv_components s2) = [[EFloat "9007199254740992"]].
Proof.
  pose (s := ex_enum (EInt 9007199254740993)).
  pose (X := Cache (ex_env no_fault) s ex_world).
  pose (Y := LoadCache (ex_env no_fault) (with_workDir (sv_workDir s) (WithCustomCachePath (sv_cachePath s) (New []))) (snd X)).
  exists (ex_env no_fault), s, ex_world, (snd (fst Y)).
  split; [reflexivity|]. split; [reflexivity|]. split.
  - exists (snd (fst X)), (snd X), (snd Y). split; vm_compute; reflexivity.
  - vm_compute. reflexivity.
Qed.
Print Assumptions C38_enum_refuted.

(** C38, refuted: a string constant that is not UTF-8 is changed. *)
Theorem C38_text_refuted :
  exists env s w s2 t,
    (forall n, e_fault env n = None) /\ map f_enum (sv_components s) = [[EStr t]] /\
    cached_and_loaded env s w s2 /\ map f_enum (sv_components s2) <> [[EStr t]].
Proof.
  pose (t := str1 (ascii_of_nat 255)). pose (s := ex_enum (EStr t)).
  pose (X := Cache (ex_env no_fault) s ex_world).
  pose (Y := LoadCache (ex_env no_fault) (with_workDir (sv_workDir s) (WithCustomCachePath (sv_cachePath s) (New []))) (snd X)).
  exists (ex_env no_fault), s, ex_world, (snd (fst Y)), t.
  split; [reflexivity|]. split; [reflexivity|]. split.
  - exists (snd (fst X)), (snd X), (snd Y). split; vm_compute; reflexivity.
  - vm_compute. discriminate.
Qed.
Print Assumptions C38_text_refuted.

(** C39, as far as it holds: at every moment of caching nothing else is touched, and at the place of the cache there is what was
    there, nothing, an empty file, the new cache, or what a failing write left. *)
Theorem C39_states_partial :
  forall env s w r s' w',
    cache_place s w <> [] -> Cache env s w = (r, s', w') ->
    forall t, came_up w w' t ->
      (forall q, ~ inside (cache_place s w) q -> kind_at q t = kind_at q (w_fs w)) /\
      let here := kind_at (cache_place s w) t in
      here = kind_at (cache_place s w) (w_fs w) \/ here = None \/ here = Some (KFile (CBytes "")) \/
      (exists c, (if is_yaml (cache_name s) then yaml_service s = Ok c else c = json_service s) /\
                 here = Some (KFile (CCache (is_yaml (cache_name s)) c))) \/
      (exists n g, e_fault env n = Some g /\ here = Some (KFile g)).
Proof.
  intros env s w r s' w' NR E t CU. destruct (cache_moments env s w r s' w' NR E t CU) as (A & B).
  split; [exact A|]. cbv zeta. destruct B as [B|[B|[B|[B|(g & (n & F) & K)]]]]; auto.
  right. right. right. right. exists n, g. now split.
Qed.
Print Assumptions C39_states_partial.

(** C39: when caching succeeds the new state is there. *)
Theorem C39_success :
  forall env s w s' w',
    Cache env s w = (Ok tt, s', w') ->
    exists c, (if is_yaml (cache_name s) then yaml_service s = Ok c else c = json_service s) /\
              kind_at (cache_place s w) (w_fs w') = Some (KFile (CCache (is_yaml (cache_name s)) c)).
Proof.
  intros env s w s' w' E. destruct (cache_ok env s w s' w' E) as (c & A & B & K). rewrite name_yaml in *.
  exists c. split; auto. destruct (is_yaml (cache_name s)); auto.
Qed.
Print Assumptions C39_success.

Example C39_nontrivial :
  cache_place ex_cached ex_world <> [] /\ fst (fst (Cache (ex_env no_fault) ex_cached ex_world)) = Ok tt /\
  w_past (snd (Cache (ex_env no_fault) ex_cached ex_world)) <> [].
Proof. split; [vm_compute; discriminate|]. split; [vm_compute; reflexivity|vm_compute; discriminate]. Qed.

(** C39, refuted: with a good cache there, and no failing call, there is a moment without any cache and one with an
    empty file, from which loading fails. *)
Theorem C39_refuted :
  exists env s w c s' w' t1 t2,
    (forall n, e_fault env n = None) /\ kind_at (cache_place s w) (w_fs w) = Some (KFile (CCache false c)) /\
    Cache env s w = (Ok tt, s', w') /\ came_up w w' t1 /\ came_up w w' t2 /\
    kind_at (cache_place s w) t1 = None /\ kind_at (cache_place s w) t2 = Some (KFile (CBytes "")).
Proof.
  pose (w := snd (Cache (ex_env no_fault) ex_cached ex_world)).
  pose (X := Cache (ex_env no_fault) ex_cached w).
  exists (ex_env no_fault), ex_cached, w, (json_service ex_cached), (snd (fst X)), (snd X),
    (nth 2 (w_past (snd X)) (Dir [])), (nth 1 (w_past (snd X)) (Dir [])).
  split; [reflexivity|]. split; [vm_compute; reflexivity|]. split; [vm_compute; reflexivity|].
  assert (P : exists new, w_past (snd X) = (new ++ w_past w)%list /\
              In (nth 2 (w_past (snd X)) (Dir [])) new /\ In (nth 1 (w_past (snd X)) (Dir [])) new).
  { exists (firstn 5 (w_past (snd X))). split; [vm_compute; reflexivity|]. split; vm_compute; auto. }
  destruct P as (new & P & I1 & I2).
  split; [right; now exists new|]. split; [right; now exists new|]. split; vm_compute; reflexivity.
Qed.
Print Assumptions C39_refuted.

(** C40, exactly: what caching wrote can be loaded if and only if the path ends in .json, .yaml or .yml. *)
Theorem C40_exact :
  forall env s w s1 w1 s0,
    (forall n, e_fault env n = None) -> sv_cachePath s0 = sv_cachePath s -> sv_workDir s0 = sv_workDir s ->
    Cache env s w = (Ok tt, s1, w1) ->
    ((exists s2 w2, LoadCache env s0 w1 = (Ok tt, s2, w2)) <->
     exists x, cache_name s = x ++ ".json" \/ cache_name s = x ++ ".yaml" \/ cache_name s = x ++ ".yml").
Proof.
  intros env s w s1 w1 s0 NF C W E.
  destruct (load_after env s w s1 w1 s0 NF E C W) as (c & A & B & w2 & L).
  unfold decodeCache in L. rewrite name_json, name_yaml in L.
  split.
  - intros (s2 & w3 & L'). rewrite L' in L.
    destruct (has_suffix ".json" (cache_name s)) eqn:J.
    { apply has_suffix_spec in J as (x & ->). exists x. now left. }
    unfold is_yaml in L. destruct (has_suffix ".yaml" (cache_name s)) eqn:Y1.
    { apply has_suffix_spec in Y1 as (x & ->). exists x. auto. }
    destruct (has_suffix ".yml" (cache_name s)) eqn:Y2; [|discriminate].
    apply has_suffix_spec in Y2 as (x & ->). exists x. auto.
  - intros (x & H).
    destruct (has_suffix ".json" (cache_name s)) eqn:J.
    { rewrite (json_not_yaml _ J) in L. eauto. }
    assert (Y : is_yaml (cache_name s) = true).
    { unfold is_yaml. destruct H as [H|[H|H]]; rewrite H.
      - rewrite H, suffix_app in J. discriminate.
      - now rewrite suffix_app.
      - rewrite suffix_app. apply orb_true_r. }
    rewrite Y in L. eauto.
Qed.
Print Assumptions C40_exact.

(** C40: the default cache can always be read back. *)
Theorem C40_default :
  forall env s w s1 w1 s0,
    (forall n, e_fault env n = None) -> sv_cachePath s = "" -> sv_cachePath s0 = "" -> sv_workDir s0 = sv_workDir s ->
    Cache env s w = (Ok tt, s1, w1) -> exists s2 w2, LoadCache env s0 w1 = (Ok tt, s2, w2).
Proof.
  intros env s w s1 w1 s0 NF C C0 W E.
  apply (C40_exact env s w s1 w1 s0 NF); [now rewrite C, C0|exact W|exact E|].
  exists "cache". left. unfold cache_name. now rewrite C.
Qed.
Print Assumptions C40_default.

(** C40: a service with any input or output cannot be cached as YAML. *)
Theorem C40_yaml_never :
  forall env s w r s' w',
    is_yaml (cache_name s) = true -> sv_inputs s <> [] \/ sv_outputs s <> [] ->
    Cache env s w = (r, s', w') -> r <> Ok tt.
Proof.
  intros env s w r s' w' Y IO E ->. destruct (cache_ok env s w s' w' E) as (c & A & _). rewrite name_yaml in A.
  specialize (A Y). unfold yaml_service in A. destruct (sv_inputs s), (sv_outputs s); try discriminate.
  destruct IO as [IO|IO]; now apply IO.
Qed.
Print Assumptions C40_yaml_never.

Example C40_nontrivial :
  fst (fst (Cache (ex_env no_fault) ex_cached ex_world)) = Ok tt /\
  fst (fst (Cache (ex_env no_fault) (WithCustomCachePath "cache.yml" (New [])) ex_world)) = Ok tt /\
  fst (fst (Cache (ex_env no_fault) (WithCustomCachePath "cache.yml" ex_cached) ex_world)) = Panic.
Proof. split; [|split]; vm_compute; reflexivity. Qed.

(** C40, refuted: a cache at a path with any other ending is written and cannot be read. *)
Theorem C40_refuted :
  exists env s w s1 w1 e s2 w2,
    (forall n, e_fault env n = None) /\ s = WithCustomCachePath "astra.cache" (New [WithGinInput (Some ex_router); WithJSONOutput "out"]) /\
    Cache env s w = (Ok tt, s1, w1) /\ LoadCache env s w1 = (Err e, s2, w2).
Proof.
  pose (s := WithCustomCachePath "astra.cache" (New [WithGinInput (Some ex_router); WithJSONOutput "out"])).
  pose (X := Cache (ex_env no_fault) s ex_world). pose (Y := LoadCache (ex_env no_fault) s (snd X)).
  exists (ex_env no_fault), s, ex_world, (snd (fst X)), (snd X), "unsupported file format", (snd (fst Y)), (snd Y).
  split; [reflexivity|]. split; [reflexivity|]. split; vm_compute; reflexivity.
Qed.
Print Assumptions C40_refuted.

(** C42: what rebinding gives when it succeeds: in order, each output with its mode and path and the generator of its
    mode, gin inputs, and nothing else changed. *)
Theorem C42_rebound :
  forall s s', rebindOptions s = Ok s' ->
    Forall2 bound_input (sv_inputs s) (sv_inputs s') /\ Forall2 bound_output (sv_outputs s) (sv_outputs s') /\ same_but_io s s'.
Proof. exact rebindOptions_spec. Qed.
Print Assumptions C42_rebound.

(** C42: it succeeds exactly when there are only gin inputs and properly configured JSON and OpenAPI outputs.  Missing: Azure
    functions, which are known but never rebound. *)
Theorem C42_succeeds_partial :
  forall s,
    (exists s', rebindOptions s = Ok s') <->
    (Forall (fun i => in_mode i = "gin") (sv_inputs s) /\
     Forall (fun o => exists p, file_output o "json" p \/ file_output o "openapi" p) (sv_outputs s)).
Proof.
  intros s. split.
  - intros (s' & E). apply rebindOptions_spec in E as (F1 & F2 & _). split.
    + induction F1 as [|i i' l l' H F1 IH]; constructor; auto. exact (proj1 H).
    + induction F2 as [|o o' l l' H F2 IH]; constructor; auto.
      destruct H as (p & N & C & _ & _ & [(M & _)|(M & _)]); exists p; [left|right]; repeat split; auto.
  - intros (F1 & F2). destruct (rebindInputs_ok _ (with_inputs [] s) F1) as (s1 & E1).
    unfold rebindOptions. rewrite E1. cbn [bind]. apply rebindOutputs_ok. exact F2.
Qed.
Print Assumptions C42_succeeds_partial.

(** C42: built-in outputs with a path come back from their modes and configurations just as the options made them, however many there are. *)
Theorem C42_built_in :
  forall (l : list (bool * string)) s',
    Forall (fun bp => snd bp <> "") l ->
    let made := map (fun bp => if fst bp : bool then mkOutput "json" (GeJSON (snd bp)) [("filePath", VStr (snd bp))]
                               else mkOutput "openapi" (GeOpenAPI (snd bp)) [("filePath", VStr (snd bp))]) l in
    Forall (fun i => in_mode i = "gin") (sv_inputs s') ->
    map (fun o => (out_mode o, out_config o)) (sv_outputs s') = map (fun o => (out_mode o, out_config o)) made ->
    exists s'', rebindOptions s' = Ok s'' /\ sv_outputs s'' = made.
Proof.
  intros l s' NE made IN OUT.
  assert (X : exists s'', rebindOptions s' = Ok s'').
  { apply C42_succeeds_partial. split.
    - exact IN.
    - clear IN. revert OUT. generalize (sv_outputs s'). unfold made. induction NE as [|(b, p) l N NE IH]; intros [|o os]; try discriminate; constructor.
      + cbn [map fst snd] in OUT. exists p. destruct b; cbn in OUT; injection OUT as H1 H2 _; [left|right];
          (split; [exact H1|split; [exact N|rewrite H2; reflexivity]]).
      + apply IH. cbn [map] in OUT. now injection OUT. }
  destruct X as (s'' & E). exists s''. split; auto.
  apply rebindOptions_spec in E as (_ & F & _). revert F OUT. unfold made. clear.
  generalize (sv_outputs s'), (sv_outputs s''). induction l as [|(b, p) l IH]; intros [|o os] os' F OUT; try discriminate.
  - inversion F; reflexivity.
  - inversion F as [|? o' ? os'' B F']; subst. cbn [map fst snd] in *.
    assert (OUT' : map (fun o => (out_mode o, out_config o)) os = map (fun o => (out_mode o, out_config o))
      (map (fun bp : bool * string => if fst bp then mkOutput "json" (GeJSON (snd bp)) [("filePath", VStr (snd bp))]
            else mkOutput "openapi" (GeOpenAPI (snd bp)) [("filePath", VStr (snd bp))]) l)) by now injection OUT.
    f_equal; [|exact (IH _ _ F' OUT')].
    destruct B as (path & _ & L & M & C & G). destruct o' as [m g c]. cbn in *.
    destruct b; cbn in OUT; injection OUT as H1 H2 _; rewrite H2 in L; cbn in L; injection L as ->; rewrite H1 in *;
      (destruct G as [(G1 & G2)|(G1 & G2)]; [|try discriminate]); try discriminate; congruence.
Qed.
Print Assumptions C42_built_in.

Example C42_nontrivial :
  match rebindOptions ex_cached with
  | Ok s' => map out_generate (sv_outputs s') = [GeOpenAPI "out"; GeJSON "out"]
  | _ => False
  end.
Proof. vm_compute. reflexivity. Qed.

(** C42, refuted: a service with an Azure output, as the option makes it, is never rebound. *)
Theorem C42_azure_refuted :
  forall dir, exists e,
    rebindOptions (New [WithGinInput (Some ex_router); WithAzureFunctionsOutput dir]) = Err e.
Proof. intros dir. eexists. reflexivity. Qed.
Print Assumptions C42_azure_refuted.

(** C42: no Azure output is ever rebound, whatever its configuration. *)
Theorem C42_azure_never :
  forall s o, In o (sv_outputs s) -> out_mode o = "azureFunctions" -> forall s', rebindOptions s <> Ok s'.
Proof.
  intros s o I M s' E. assert (X : exists s', rebindOptions s = Ok s') by eauto.
  apply C42_succeeds_partial in X as (_ & F). rewrite Forall_forall in F.
  destruct (F o I) as (p & [(H & _)|(H & _)]); congruence.
Qed.
Print Assumptions C42_azure_never.
