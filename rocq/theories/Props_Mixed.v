(** Generating again on the same service, with calls of other outputs in between: C48. *)
From Coq Require Import List String Ascii Bool ZArith Arith Lia.
From Verif Require Import BaseStr BaseMap M_Types M_Collect M_OpenAPI M_Parse M_Clean M_FS M_Service.
From Verif Require Import S_Collect S_Names S_OpenAPI S_Example S_Service S_Cache S_Files S_Azure S_Again S_Mixed.
From Verif Require Import P_FS P_Path P_Parse P_Names P_Schema P_Act P_Frame P_Load P_Azure P_Again P_Mixed P_Stays Props_Names Props_OpenAPI Props_Again.
Import ListNotations.
Local Open Scope string_scope.

(** C48, JSON: whatever outputs are called in between, in any order and any number of times, and whatever happens to the
    files, a successful call writes the same results.  Where to depends on the earlier calls of the same output only. *)
Theorem C48_between_json :
  forall P l n s w s' w' o x,
    sv_workDir s <> "" -> nth_error (sv_outputs s) n = Some o -> out_generate o = GeJSON x -> called_after P l n s w s' w' ->
    kind_at (written_place s w (with_extension json_endings x) (count n l)) (w_fs w') =
      Some (KFile (CResults (sv_routes s) (sv_components s))).
Proof.
  intros P l n s w s' w' o x W N O A. rewrite <- trail_place by auto. now apply (mixed_json P l n s w s' w' o x).
Qed.
Print Assumptions C48_between_json.

(** C48, Azure: the same folders at the same place. *)
Theorem C48_between_azure :
  forall P l n s w s' w' o d,
    sv_workDir s <> "" -> nth_error (sv_outputs s) n = Some o -> out_generate o = GeAzure d -> called_after P l n s w s' w' ->
    forall q c, kind_at (place (work_dir s w) d ++ q) (w_fs w') = Some c <-> expected (sv_routes s) q c.
Proof. intros P l n s w s' w' o d W N O A. exact (mixed_azure P l n s w s' w' o d W N O A). Qed.
Print Assumptions C48_between_azure.

(** C48, OpenAPI: the document that a first call of some OpenAPI output writes is what every call of every OpenAPI output
    writes, in the format of its own file, whatever is called in between.  The conditions are those of
    C48_openapi_partial. *)
Theorem C48_between_openapi_partial :
  forall (P : Env -> Prop) m s w s1 w1 om y d l n s' w' o x,
    sv_workDir s <> "" ->
    (forall env env', P env -> P env' ->
       valid_orders (e_orders env) /\ forall s l, o_sort (e_orders env) s l = o_sort (e_orders env') s l) ->
    parsed_components (sv_components s) -> unambiguous (sv_components s) -> NoDup (map comp_key (sv_components s)) ->
    msorted (w_names w) -> (forall c, In c (sv_components s) -> order_safe c) ->
    nth_error (sv_outputs s) m = Some om -> out_generate om = GeOpenAPI y -> again P m 1 s w s1 w1 ->
    (let e := with_extension openapi_endings y in
     kind_at (place (work_dir s w) e) (w_fs w1) = Some (KFile (CDocument (is_yaml e) d))) ->
    (forall r op, In r (sv_routes s) -> documents d r op ->
       Forall unbound (rt_queryParams r) \/ NoDup (map pa_name (op_parameters op))) ->
    nth_error (sv_outputs s) n = Some o -> out_generate o = GeOpenAPI x -> called_after P l n s w s' w' ->
    let e := with_extension openapi_endings x in
    kind_at (written_place s w e (count n l)) (w_fs w') = Some (KFile (CDocument (is_yaml e) d)).
Proof.
  intros P m s w s1 w1 om y d l n s' w' o x W HP Hp Hu HN Hm Hs M Y A1 K1 Hop N O A e. cbn zeta in K1.
  inversion A1 as [|? ? ? s0 w0 env0 o0 ? ? A0 PE0 N0 E0]; subst. inversion A0; subst. rewrite M in N0. injection N0 as <-.
  destruct (openapi_step env0 m om y _ _ _ _ Y E0) as (d0 & c & names & B0 & _ & _ & _ & K0).
  rewrite locate_join in K0 by auto. rewrite place_under in K1. change (locate (w_cwd w0) (sv_workDir s0)) with (work_dir s0 w0) in K0.
  rewrite K1 in K0. injection K0 as <-.
  rewrite <- trail_place by auto.
  exact (mixed_openapi P s0 w0 W HP Hp Hu HN Hm Hs env0 PE0 d c names B0 Hop l n s' w' o x N O A).
Qed.
Print Assumptions C48_between_openapi_partial.

(** Runs of generation are such calls: in the run of generation that comes after [k] others, right after the outputs up to
    number [n], the file or the folders of output number [n] are the same as ever.  Each of the runs can write a cache. *)
Theorem C48_generations :
  forall (P : Env -> Prop) k s w s1 w1 env n o s2 w2,
    sv_workDir s <> "" -> nth_error (sv_outputs s) n = Some o ->
    generations P s w k s1 w1 -> P env -> runGenerates env 0 (firstn (S n) (sv_outputs s1)) s1 w1 = (Ok tt, s2, w2) ->
    (exists l, count n l = k /\ called_after P l n s w s2 w2) /\
    (forall x, out_generate o = GeJSON x ->
       kind_at (written_place s w (with_extension json_endings x) k) (w_fs w2) = Some (KFile (CResults (sv_routes s) (sv_components s)))) /\
    (forall d, out_generate o = GeAzure d ->
       forall q c, kind_at (place (work_dir s w) d ++ q) (w_fs w2) = Some c <-> expected (sv_routes s) q c).
Proof.
  intros P k s w s1 w1 env n o s2 w2 W N G PE E.
  assert (L : n < List.length (sv_outputs s)) by (apply nth_error_Some; congruence).
  pose proof (generation_called P s w k s1 w1 env n s2 w2 W G PE L E) as C. split; [exact C|].
  destruct C as (l & <- & A). split.
  - intros x O. eapply C48_between_json; eauto.
  - intros d O. eapply C48_between_azure; eauto.
Qed.
Print Assumptions C48_generations.

(** The document in runs of generation. *)
Theorem C48_generations_openapi_partial :
  forall (P : Env -> Prop) m s w s0 w0 om y d k s1 w1 env n o x s2 w2,
    sv_workDir s <> "" ->
    (forall env env', P env -> P env' ->
       valid_orders (e_orders env) /\ forall s l, o_sort (e_orders env) s l = o_sort (e_orders env') s l) ->
    parsed_components (sv_components s) -> unambiguous (sv_components s) -> NoDup (map comp_key (sv_components s)) ->
    msorted (w_names w) -> (forall c, In c (sv_components s) -> order_safe c) ->
    nth_error (sv_outputs s) m = Some om -> out_generate om = GeOpenAPI y -> again P m 1 s w s0 w0 ->
    (let e := with_extension openapi_endings y in
     kind_at (place (work_dir s w) e) (w_fs w0) = Some (KFile (CDocument (is_yaml e) d))) ->
    (forall r op, In r (sv_routes s) -> documents d r op ->
       Forall unbound (rt_queryParams r) \/ NoDup (map pa_name (op_parameters op))) ->
    nth_error (sv_outputs s) n = Some o -> out_generate o = GeOpenAPI x ->
    generations P s w k s1 w1 -> P env -> runGenerates env 0 (firstn (S n) (sv_outputs s1)) s1 w1 = (Ok tt, s2, w2) ->
    let e := with_extension openapi_endings x in
    kind_at (written_place s w e k) (w_fs w2) = Some (KFile (CDocument (is_yaml e) d)).
Proof.
  intros P m s w s0 w0 om y d k s1 w1 env n o x s2 w2 W HP Hp Hu HN Hm Hs M Y A1 K1 Hop N O G PE E.
  destruct (C48_generations P k s w s1 w1 env n o s2 w2 W N G PE E) as ((l & <- & A) & _).
  exact (C48_between_openapi_partial P m s w s0 w0 om y d l n s2 w2 o x W HP Hp Hu HN Hm Hs M Y A1 K1 Hop N O A).
Qed.
Print Assumptions C48_generations_openapi_partial.

(** Two runs of generation and a third up to the Azure output, and the calls 0 1 2 1 0 1, in a working directory given as
    a dot. *)
Definition ex_generate (x : bool * Service * World) : bool * Service * World :=
  let '(ok, s, w) := x in
  let '(r, s1, w1) := Generate (ex_env no_fault) s w in
  (ok && match r with Ok tt => true | _ => false end, s1, w1).
Definition C48_named : Service :=
  with_results
    [mkRoute "main.list" "" 0 "GET" "/a" [] [mkParam "q" (named_field "" "string") false false false false] [] [] "" "" [] []]
    C19_good C48_dot.
Definition C48_after_two := ex_generate (ex_generate (true, C48_named, C48_world')).
Lemma ex_part n s w : fst (fst (runGenerates (ex_env no_fault) 0 (firstn n (sv_outputs s)) s w)) = Ok tt ->
  exists s2 w2, runGenerates (ex_env no_fault) 0 (firstn n (sv_outputs s)) s w = (Ok tt, s2, w2).
Proof. destruct (runGenerates _ _ _ s w) as [[r s2] w2]. cbn [fst]. intros ->. eauto. Qed.

Lemma ex_generate_more k s w x : fst (fst (ex_generate x)) = true ->
  (fst (fst x) = true -> generations (fun env => env = ex_env no_fault) s w k (snd (fst x)) (snd x)) ->
  generations (fun env => env = ex_env no_fault) s w (S k) (snd (fst (ex_generate x))) (snd (ex_generate x)).
Proof.
  destruct x as [[ok s1] w1]. cbn [fst snd]. unfold ex_generate. destruct (Generate (ex_env no_fault) s1 w1) as [[r s2] w2] eqn:E.
  cbn [fst snd]. intros H G. apply andb_true_iff in H as (-> & H). destruct r as [[]| | |]; try discriminate.
  eapply gen_more; [apply G; reflexivity|reflexivity|exact E].
Qed.

Example C48_generations_nontrivial :
  sv_workDir C48_named <> "" /\
  parsed_components (sv_components C48_named) /\ unambiguous (sv_components C48_named) /\
  NoDup (map comp_key (sv_components C48_named)) /\ (forall c, In c (sv_components C48_named) -> order_safe c) /\
  (forall r, In r (sv_routes C48_named) -> rt_queryParams r <> [] /\ Forall unbound (rt_queryParams r)) /\
  (exists s w, again (fun env => env = ex_env no_fault) 1 1 C48_named C48_world' s w) /\
  (exists s1 w1 s2 w2, generations (fun env => env = ex_env no_fault) C48_named C48_world' 2 s1 w1 /\
     runGenerates (ex_env no_fault) 0 (firstn 3 (sv_outputs s1)) s1 w1 = (Ok tt, s2, w2)).
Proof.
  destruct C48_openapi_nontrivial as (A & B & C & D & _).
  split; [discriminate|]. split; [exact A|]. split; [exact B|]. split; [exact C|]. split; [exact D|].
  split; [intros r [<-|[]]; split; [discriminate|repeat constructor]|].
  split; [apply ex_calls_again; vm_compute; reflexivity|].
  exists (snd (fst C48_after_two)), (snd C48_after_two).
  assert (G : generations (fun env => env = ex_env no_fault) C48_named C48_world' 2 (snd (fst C48_after_two)) (snd C48_after_two)).
  { unfold C48_after_two. apply ex_generate_more; [vm_compute; reflexivity|]. intros _.
    apply ex_generate_more; [vm_compute; reflexivity|]. intros _. constructor. }
  destruct (ex_part 3 (snd (fst C48_after_two)) (snd C48_after_two)) as (s2 & w2 & E); [vm_compute; reflexivity|].
  exists s2, w2. split; [exact G|exact E].
Qed.

Fixpoint ex_mixed (l : list nat) (s : Service) (w : World) : bool * Service * World :=
  match l with
  | [] => (true, s, w)
  | n :: l =>
      match nth_error (sv_outputs s) n with
      | Some o =>
          let '(r, s2, w2) := runGenerate (ex_env no_fault) n o s w in
          match r with Ok tt => ex_mixed l s2 w2 | _ => (false, s2, w2) end
      | None => (false, s, w)
      end
  end.
Lemma ex_mixed_calls s w : forall l pre s1 w1,
  calls (fun env => env = ex_env no_fault) s w pre s1 w1 -> fst (fst (ex_mixed l s1 w1)) = true ->
  exists s' w', calls (fun env => env = ex_env no_fault) s w (pre ++ l) s' w'.
Proof.
  induction l as [|n l IH]; intros pre s1 w1 A H; cbn [ex_mixed] in H.
  - rewrite app_nil_r. eauto.
  - destruct (nth_error (sv_outputs s1) n) as [o|] eqn:N; [|discriminate].
    destruct (runGenerate (ex_env no_fault) n o s1 w1) as [[r s2] w2] eqn:E. destruct r as [[]| | |]; try discriminate.
    change (n :: l) with ([n] ++ l)%list. rewrite app_assoc. eapply IH; [|exact H].
    eapply calls_more; [exact A|reflexivity|exact N|exact E].
Qed.
Example C48_between_nontrivial :
  exists s w, calls (fun env => env = ex_env no_fault) C48_named C48_world' [0; 1; 2; 1; 0; 1] s w.
Proof. apply (ex_mixed_calls C48_named C48_world' [0; 1; 2; 1; 0; 1] [] C48_named C48_world'); [constructor|vm_compute; reflexivity]. Qed.

(** At the end of the run, the caches aside: without an Azure output and a cache, a file stays to the end of its run unless
    a later output of the run writes the same file. *)
Theorem C48_end_json_partial :
  forall (P : Env -> Prop) k s w s' w' n o x,
    sv_workDir s <> "" -> sv_cacheEnabled s = false ->
    (forall m om, nth_error (sv_outputs s) m = Some om -> one_file om) ->
    (forall m om, n < m -> nth_error (sv_outputs s) m = Some om -> file_of s w o k <> file_of s w om k) ->
    nth_error (sv_outputs s) n = Some o -> out_generate o = GeJSON x -> generations P s w (S k) s' w' ->
    kind_at (written_place s w (with_extension json_endings x) k) (w_fs w') = Some (KFile (CResults (sv_routes s) (sv_components s))).
Proof.
  intros P k s w s' w' n o x W NC F D N O G.
  assert (L : n < List.length (sv_outputs s)) by (apply nth_error_Some; congruence).
  destruct (generation_stays P s w k s' w' n W NC L F G) as (l & s2 & w2 & <- & A & S).
  apply S; [now apply (C48_between_json P l n s w s2 w2 o x)|]. intros m om M NM. pose proof (D m om M NM) as X. unfold file_of at 1 in X. rewrite O in X. exact X.
Qed.
Print Assumptions C48_end_json_partial.

Theorem C48_end_openapi_partial :
  forall (P : Env -> Prop) m s w s0 w0 om y d k n o x s' w',
    sv_workDir s <> "" -> sv_cacheEnabled s = false ->
    (forall m om, nth_error (sv_outputs s) m = Some om -> one_file om) ->
    (forall m om, n < m -> nth_error (sv_outputs s) m = Some om -> file_of s w o k <> file_of s w om k) ->
    (forall env env', P env -> P env' ->
       valid_orders (e_orders env) /\ forall s l, o_sort (e_orders env) s l = o_sort (e_orders env') s l) ->
    parsed_components (sv_components s) -> unambiguous (sv_components s) -> NoDup (map comp_key (sv_components s)) ->
    msorted (w_names w) -> (forall c, In c (sv_components s) -> order_safe c) ->
    nth_error (sv_outputs s) m = Some om -> out_generate om = GeOpenAPI y -> again P m 1 s w s0 w0 ->
    (let e := with_extension openapi_endings y in
     kind_at (place (work_dir s w) e) (w_fs w0) = Some (KFile (CDocument (is_yaml e) d))) ->
    (forall r op, In r (sv_routes s) -> documents d r op ->
       Forall unbound (rt_queryParams r) \/ NoDup (map pa_name (op_parameters op))) ->
    nth_error (sv_outputs s) n = Some o -> out_generate o = GeOpenAPI x -> generations P s w (S k) s' w' ->
    let e := with_extension openapi_endings x in
    kind_at (written_place s w e k) (w_fs w') = Some (KFile (CDocument (is_yaml e) d)).
Proof.
  intros P m s w s0 w0 om y d k n o x s' w' W NC F D HP Hp Hu HN Hm Hs M Y A1 K1 Hop N O G e.
  assert (L : n < List.length (sv_outputs s)) by (apply nth_error_Some; congruence).
  destruct (generation_stays P s w k s' w' n W NC L F G) as (l & s2 & w2 & <- & A & S). apply S.
  - exact (C48_between_openapi_partial P m s w s0 w0 om y d l n s2 w2 o x W HP Hp Hu HN Hm Hs M Y A1 K1 Hop N O A).
  - intros m' om' M' NM. pose proof (D m' om' M' NM) as X. unfold file_of at 1 in X. rewrite O in X. exact X.
Qed.
Print Assumptions C48_end_openapi_partial.

(** Two runs with three outputs, the second and third of them documents in both formats. *)
Definition C48_files : Service :=
  with_results (sv_routes C48_named) C19_good
    (with_config (Some (mkConfig "t" "" "1" ("", "", "") ("", "") false "h" "/" 80))
       (with_workDir "." (New [WithGinInput (Some ex_router); WithJSONOutput "out"; WithOpenAPIOutput "api.yaml"; WithOpenAPIOutput "api"]))).
Definition C48_files_two := ex_generate (ex_generate (true, C48_files, C48_world')).
Example C48_end_nontrivial :
  sv_workDir C48_files <> "" /\ sv_cacheEnabled C48_files = false /\ List.length (sv_outputs C48_files) = 3 /\
  (forall m om, nth_error (sv_outputs C48_files) m = Some om -> one_file om) /\
  (forall n o m om, n < m -> nth_error (sv_outputs C48_files) n = Some o -> nth_error (sv_outputs C48_files) m = Some om ->
     file_of C48_files C48_world' o 1 <> file_of C48_files C48_world' om 1) /\
  (exists s w, again (fun env => env = ex_env no_fault) 1 1 C48_files C48_world' s w) /\
  exists s w, generations (fun env => env = ex_env no_fault) C48_files C48_world' 2 s w.
Proof.
  split; [discriminate|]. split; [reflexivity|]. split; [reflexivity|].
  split. { intros [|[|[|m]]] om H; cbn in H; try (destruct m; discriminate); injection H as <-; eexists; cbn; eauto. }
  split.
  { intros [|[|[|n]]] o [|[|[|m]]] om L H H'; try lia; cbn in H, H'; try (destruct n; discriminate); try (destruct m; discriminate);
      injection H as <-; injection H' as <-; vm_compute; discriminate. }
  split; [apply ex_calls_again; vm_compute; reflexivity|].
  exists (snd (fst C48_files_two)), (snd C48_files_two). unfold C48_files_two.
  apply ex_generate_more; [vm_compute; reflexivity|]. intros _. apply ex_generate_more; [vm_compute; reflexivity|]. intros _. constructor.
Qed.
