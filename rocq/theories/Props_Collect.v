(** C05-C09: handler names, route creation, accumulating lists. *)
From Coq Require Import List String Ascii Bool ZArith.
From Verif Require Import BaseStr M_Types M_Collect S_Collect P_Collect.
Import ListNotations.
Local Open Scope string_scope.

(** C05: the split loses nothing, for every string. *)
Theorem C05_split_lossless : forall s,
  PackagePath (SplitHandlerPath s) ++ dotted (hp_handlerParts (SplitHandlerPath s)) = s.
Proof. exact split_lossless. Qed.
Print Assumptions C05_split_lossless.

(** The function name is recovered for every package path, also for closures and methods. *)
Theorem C05_function_recovered : forall pkg f more,
  ident_like f -> Forall ident_like more ->
  FuncName (SplitHandlerPath (runtime_name pkg (f :: more))) = Ok f /\
  Handler (SplitHandlerPath (runtime_name pkg (f :: more))) = join "." (f :: more).
Proof.
  intros pkg f more Hf Hm. split; [exact (func_name_runtime pkg f more Hf Hm)|].
  rewrite split_runtime_name; [reflexivity|discriminate|constructor; auto].
Qed.
Print Assumptions C05_function_recovered.

(** Full claim "the package path is recovered": false, the linker escapes dots after the last
    slash and the split does not undo it. *)
Theorem C05_package_recovered_refuted :
  exists pkg f, ident_like f /\ PackagePath (SplitHandlerPath (runtime_name pkg [f])) <> pkg.
Proof.
  exists "gopkg.in/yaml.v3", "Handle". split; [split; reflexivity|]. discriminate.
Qed.
Print Assumptions C05_package_recovered_refuted.

(** It is recovered exactly for the package paths without escaped characters. *)
Theorem C05_package_recovered_partial : forall pkg f more,
  ident_like f -> Forall ident_like more ->
  (PackagePath (SplitHandlerPath (runtime_name pkg (f :: more))) = pkg <-> plain_pkg pkg = true).
Proof.
  intros pkg f more Hf Hm. rewrite package_path_runtime; [|discriminate|constructor; auto].
  exact (mangle_id_iff pkg).
Qed.
Print Assumptions C05_package_recovered_partial.

Example C05_nontrivial :
  plain_pkg "github.com/ls6-events/astra/tests" = true /\ ident_like "Setup" /\ ident_like "func1" /\
  SplitHandlerPath (runtime_name "github.com/ls6-events/astra/tests" ["Setup"; "func1"]) =
    mkHP ["github.com"; "ls6-events"; "astra"; "tests"] ["Setup"; "func1"].
Proof. repeat split. Qed.

(** C06: creation succeeds exactly when a path can be made relative for every allowed entry, and
    then appends exactly the routes of the allowed entries in order. *)
Theorem C06_created_exact : forall rel deny infos routes routes',
  CreateRoutes rel deny infos routes = (routes', None) <->
  exists rs, created rel deny infos rs /\ routes' = (routes ++ rs)%list.
Proof. exact create_ok. Qed.
Print Assumptions C06_created_exact.

Theorem C06_created_succeeds : forall rel deny infos routes,
  (forall i, In i infos -> allowed deny i -> exists p, rel (gi_file i) = Some p) ->
  exists routes', CreateRoutes rel deny infos routes = (routes', None).
Proof.
  intros rel deny infos routes H. destruct (created_total rel deny infos H) as [rs Hrs].
  exists (routes ++ rs)%list. apply create_ok. eauto.
Qed.
Print Assumptions C06_created_succeeds.

Theorem C06_failure_keeps_prefix : forall rel deny infos routes routes' e,
  CreateRoutes rel deny infos routes = (routes', Some e) ->
  exists pre i post rs,
    infos = (pre ++ i :: post)%list /\ created rel deny pre rs /\ routes' = (routes ++ rs)%list /\
    allowed deny i /\ rel (gi_file i) = None.
Proof. exact create_err. Qed.
Print Assumptions C06_failure_keeps_prefix.

Definition C06_ex_infos :=
  [mkGin "GET" "/a" "p.A" "/w/a.go" 3; mkGin "GET" "/debug" "p.D" "/w/d.go" 4;
   mkGin "POST" "/a" "p.B" "/w/a.go" 9].
Example C06_nontrivial :
  exists routes', CreateRoutes (fun f => Some (drop 3 f)) [deny_exact "/debug"] C06_ex_infos [] = (routes', None)
  /\ map route_key routes' = [("/a", "GET"); ("/a", "POST")] /\ map rt_file routes' = ["a.go"; "a.go"].
Proof. eexists. repeat split. Qed.
Example C06_nontrivial_failure :
  exists routes', CreateRoutes (fun f => if String.eqb f "/w/d.go" then None else Some f) [] C06_ex_infos []
    = (routes', Some "relative path") /\ map route_key routes' = [("/a", "GET")].
Proof. eexists. split; reflexivity. Qed.

(** C07: additions append the first occurrence of each key not there yet. *)
Theorem C07_components_first_wins : forall prev n,
  exists out, first_occ (map comp_key prev) n out /\ AddComponent prev n = (prev ++ out)%list.
Proof. intros prev n. exact (add_component_spec n prev). Qed.
Print Assumptions C07_components_first_wins.

Theorem C07_components_unique : forall prev n,
  NoDup (map comp_key prev) -> NoDup (map comp_key (AddComponent prev n)).
Proof. intros prev n. exact (add_component_nodup n prev). Qed.
Print Assumptions C07_components_unique.

Theorem C07_components_complete : forall prev n f,
  In f (prev ++ n)%list -> In (comp_key f) (map comp_key (AddComponent prev n)).
Proof.
  intros prev n f H. destruct (add_component_spec n prev) as (out & Hf & ->).
  rewrite map_app, in_app_iff. apply in_app_iff in H as [H|H].
  - left. now apply in_map.
  - eapply first_occ_keys; eauto. now apply in_map.
Qed.
Print Assumptions C07_components_complete.

(** Any history of additions to the empty registry, in whatever batches. *)
Theorem C07_history : forall batches : list (list Field),
  NoDup (map comp_key (fold_left AddComponent batches [])) /\
  (forall b f, In b batches -> In f b ->
     In (comp_key f) (map comp_key (fold_left AddComponent batches []))) /\
  AddComponent [] (List.concat batches) = fold_left AddComponent batches [].
Proof.
  intros batches.
  assert (H : forall bs prev, fold_left AddComponent bs prev = AddComponent prev (List.concat bs)).
  { induction bs as [|b bs IH]; intros prev; [reflexivity|]. simpl. rewrite IH.
    unfold AddComponent. now rewrite fold_left_app. }
  rewrite H. split; [|split; [|reflexivity]].
  - apply add_component_nodup. constructor.
  - intros b f Hb Hf. apply C07_components_complete. simpl. apply in_concat. eauto.
Qed.
Print Assumptions C07_history.

Theorem C07_add_again_no_change : forall prev n,
  AddComponent (AddComponent prev n) n = AddComponent prev n.
Proof. intros prev n. exact (add_component_idem n prev). Qed.
Print Assumptions C07_add_again_no_change.

Definition C07_comp (p n t : string) : Field :=
  mkField p t n [] false false "" "" 0 "" "" "" [] [] [] "".
Example C07_nontrivial :
  NoDup (map comp_key [C07_comp "p" "A" "struct"]) /\
  AddComponent [C07_comp "p" "A" "struct"] [C07_comp "q" "A" "int"; C07_comp "p" "A" "map"; C07_comp "q" "A" "string"]
  = [C07_comp "p" "A" "struct"; C07_comp "q" "A" "int"].
Proof. split; [repeat constructor; simpl; tauto|reflexivity]. Qed.

(** C08: every key added is present and earlier entries keep their place. *)
Theorem C08_returns_complete : forall prev n r,
  In r n -> In (ret_key r) (map ret_key (AddReturnType prev n)).
Proof. intros prev n r. exact (add_return_present n prev r). Qed.
Print Assumptions C08_returns_complete.

Theorem C08_returns_prefix : forall prev n,
  exists ext, AddReturnType prev n = (prev ++ ext)%list /\ incl ext n.
Proof. intros prev n. exact (add_return_prefix n prev). Qed.
Print Assumptions C08_returns_prefix.

(** Full claim "no two entries have the same key": false. *)
Definition C08_ret (c : Z) : ReturnType := mkRet c "application/json" (field_of_type "string").
Theorem C08_returns_unique_refuted :
  exists batches, ~ NoDup (map ret_key (fold_left AddReturnType batches [])).
Proof.
  exists [[C08_ret 200]; [C08_ret 404]; [C08_ret 200]]. simpl. intros H.
  inversion H as [|? ? Hn _]; subst. apply Hn. simpl. auto.
Qed.
Print Assumptions C08_returns_unique_refuted.

(** What holds instead: an addition is dropped exactly when the list is non-empty and all its
    entries have the new key; so a list with two keys grows with every addition. *)
Theorem C08_returns_dropped_iff_partial : forall prev r,
  AddReturnType prev [r] = prev <-> prev <> [] /\ (forall y, In y prev -> ret_key y = ret_key r).
Proof. exact addReturn1_kept. Qed.
Print Assumptions C08_returns_dropped_iff_partial.

Example C08_nontrivial :
  AddReturnType [] [C08_ret 200; C08_ret 200; C08_ret 404; C08_ret 404]
  = [C08_ret 200; C08_ret 404; C08_ret 404].
Proof. reflexivity. Qed.

(** C09 *)
Theorem C09_replace_first_match : forall r routes,
  (~ In (route_key r) (map route_key routes) /\ ReplaceRoute r routes = routes) \/
  (exists pre old post, routes = (pre ++ old :: post)%list /\ route_key old = route_key r /\
     ~ In (route_key r) (map route_key pre) /\ ReplaceRoute r routes = (pre ++ r :: post)%list).
Proof. exact replace_route_spec. Qed.
Print Assumptions C09_replace_first_match.

Example C09_nontrivial :
  let r k p l := mkRoute "" "" l k p [] [] [] [] "" "" [] [] in
  ReplaceRoute (r "GET" "/b" 9%Z) [r "GET" "/a" 1%Z; r "POST" "/b" 2%Z; r "GET" "/b" 3%Z; r "GET" "/b" 4%Z] =
  [r "GET" "/a" 1%Z; r "POST" "/b" 2%Z; r "GET" "/b" 9%Z; r "GET" "/b" 4%Z].
Proof. reflexivity. Qed.
