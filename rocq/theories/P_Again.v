(** Generation again and again: where the files go and what is in them. *)
From Coq Require Import List String Ascii Bool ZArith Arith Lia.
From Verif Require Import BaseStr BaseMap M_Types M_Collect M_OpenAPI M_Parse M_Clean M_FS M_Service.
From Verif Require Import S_Collect S_Names S_OpenAPI S_Service S_Cache S_Files S_Azure S_Again.
From Verif Require Import P_FS P_Path P_Parse P_Names P_Schema P_Act P_Frame P_Load P_Azure.
Import ListNotations.
Local Open Scope string_scope.

(** ** Paths *)

(** A name ending in a longer ending that starts with a dot is an ordinary one. *)
Lemma last_plain e x c :
  has_suffix ("." ++ x ++ str1 c) e = true -> c <> "."%char -> has_char "/" ("." ++ x ++ str1 c) = false ->
  exists l k, split "/" e = (l ++ [k])%list /\ plain_name k /\ has_suffix ("." ++ x ++ str1 c) k = true.
Proof.
  intros H N S. apply has_suffix_spec in H as (a & ->).
  rewrite (split_app "/" a). rewrite (split_no_sep "/" ("." ++ x ++ str1 c)) by auto. cbn [hd tl].
  exists (removelast (split "/" a)), (last (split "/" a) "" ++ ("." ++ x ++ str1 c)). split; auto.
  assert (L : has_char "/" (last (split "/" a) "") = false).
  { pose proof (split_no_char "/" a) as F. rewrite Forall_forall in F. apply F.
    rewrite (app_removelast_last "" (split_not_nil "/" a)) at 2. apply in_or_app. right. now left. }
  split; [|apply suffix_app].
  set (u := last (split "/" a) "") in *. repeat split.
  - intros E. apply append_eq_nil in E as (_ & E). discriminate.
  - intros E. assert (X : (u ++ "." ++ x) ++ str1 c = "" ++ str1 ".") by (rewrite !append_assoc; exact E).
    apply snoc_inj in X as (_ & X). congruence.
  - intros E. assert (X : (u ++ "." ++ x) ++ str1 c = "." ++ str1 ".") by (rewrite !append_assoc; exact E).
    apply snoc_inj in X as (_ & X). congruence.
  - rewrite has_char_append, L. exact S.
Qed.

Lemma join_ends w e l k : w <> "" -> split "/" e = (l ++ [k])%list -> plain_name k -> exists a, path_Join [w; e] = a ++ k.
Proof.
  intros W L (A & B & D & S). unfold path_Join. cbn [filter].
  assert (E : e <> "") by (intros ->; cbn in L; destruct l as [|? [|]]; cbn in L; injection L; intros; subst; congruence).
  apply String.eqb_neq in W, E. rewrite W, E. cbn [negb join String.concat].
  change (w ++ "/" ++ e) with (w ++ String "/" e). unfold path_Clean. rewrite (split_sep "/" w e), L, app_assoc, fold_left_app.
  cbn [fold_left]. rewrite push_plain by (try (split; auto); auto). cbn [rev].
  set (f := fold_left _ _ _). destruct (is_rooted _).
  - destruct (join_last (rev f) k) as (a & ->). exists ("/" ++ a). now rewrite append_assoc.
  - destruct (rev f ++ [k])%list eqn:E'; [now destruct (rev f)|]. rewrite <- E'. apply join_last.
Qed.

Lemma join_ending w e x c :
  w <> "" -> has_suffix ("." ++ x ++ str1 c) e = true -> c <> "."%char -> has_char "/" ("." ++ x ++ str1 c) = false ->
  has_suffix ("." ++ x ++ str1 c) (path_Join [w; e]) = true.
Proof.
  intros W H N S. destruct (last_plain e x c H N S) as (l & k & L & P & K).
  destruct (join_ends w e l k W L P) as (a & ->). apply has_suffix_spec in K as (u & ->).
  rewrite <- (append_assoc a u). apply suffix_app.
Qed.

Definition ending (e : string) : Prop := e = ".json" \/ e = ".yaml" \/ e = ".yml".
Lemma join_ending' w e x : w <> "" -> ending x -> has_suffix x e = true -> has_suffix x (path_Join [w; e]) = true.
Proof.
  intros W [ -> |[ -> | -> ]] H.
  - apply (join_ending w e "jso" "n"); auto. discriminate.
  - apply (join_ending w e "yam" "l"); auto. discriminate.
  - apply (join_ending w e "ym" "l"); auto. discriminate.
Qed.

(** The path after [k] further calls. *)
Fixpoint trail (wd e : string) (k : nat) : string :=
  match k with O => path_Join [wd; e] | S k => path_Join [wd; trail wd e k] end.

Lemma extension_has exts x : In ".json" exts -> exists y, In y exts /\ has_suffix y (with_extension exts x) = true.
Proof.
  intros J. unfold with_extension. destruct (existsb _ exts) eqn:E.
  - apply existsb_exists in E as (y & Y & H). eauto.
  - exists ".json". split; auto. apply suffix_app.
Qed.
Lemma extension_id exts y p : In y exts -> has_suffix y p = true -> with_extension exts p = p.
Proof.
  intros Y H. unfold with_extension. replace (existsb _ exts) with true; auto. symmetry. apply existsb_exists. eauto.
Qed.
Lemma trail_ending wd e y k : wd <> "" -> ending y -> has_suffix y e = true -> has_suffix y (trail wd e k) = true.
Proof. intros W Y H. induction k; cbn [trail]; now apply join_ending'. Qed.

Lemma trail_id exts wd x k : wd <> "" -> In ".json" exts -> (forall y, In y exts -> ending y) ->
  with_extension exts (trail wd (with_extension exts x) k) = trail wd (with_extension exts x) k.
Proof.
  intros W J A. destruct (extension_has exts x J) as (y & Y & H). apply (extension_id exts y); auto.
  apply trail_ending; auto.
Qed.

Lemma json_id wd x k : wd <> "" ->
  with_extension json_endings (trail wd (with_extension json_endings x) k) = trail wd (with_extension json_endings x) k.
Proof. intros W. apply trail_id; [exact W|now left|]. intros y [<-|[]]; now left. Qed.
Lemma openapi_id wd x k : wd <> "" ->
  with_extension openapi_endings (trail wd (with_extension openapi_endings x) k) = trail wd (with_extension openapi_endings x) k.
Proof. intros W. apply trail_id; [exact W|now left|]. intros y [<-|[<-|[<-|[]]]]; [now left|right; now left|right; now right]. Qed.

Lemma yaml_not_json p : is_yaml p = true -> has_suffix ".json" p = false.
Proof. intros H. destruct (has_suffix ".json" p) eqn:E; auto. apply json_not_yaml in E. congruence. Qed.

Lemma trail_yaml wd x k : wd <> "" ->
  let e := with_extension openapi_endings x in is_yaml (trail wd e k) = is_yaml e.
Proof.
  intros W e. destruct (is_yaml e) eqn:Y.
  - unfold is_yaml in *. apply orb_true_iff in Y as [Y|Y].
    + rewrite (trail_ending wd e ".yaml" k); auto. right; now left.
    + rewrite (trail_ending wd e ".yml" k); auto; [|right; now right]. apply orb_true_r.
  - destruct (extension_has openapi_endings x) as (y & [<-|[<-|[<-|[]]]] & H); [now left| | |].
    + apply json_not_yaml. apply trail_ending; auto. now left.
    + unfold is_yaml in Y. fold e in H. rewrite H in Y. discriminate.
    + unfold is_yaml in Y. fold e in H. rewrite H, orb_true_r in Y. discriminate.
Qed.

(** ** Where the paths lead *)

Lemma rooted_canonical wd e cwd : is_rooted wd = true ->
  path_Join [wd; e] = "/" ++ join "/" (locate cwd (path_Join [wd; e])) /\ Forall plain_name (locate cwd (path_Join [wd; e])).
Proof.
  intros R. assert (W : wd <> "") by (intros ->; discriminate).
  assert (J : exists p, path_Join [wd; e] = path_Clean p /\ is_rooted p = true).
  { unfold path_Join. cbn [filter]. apply String.eqb_neq in W. rewrite W. cbn [negb]. destruct (String.eqb e ""); cbn [negb join String.concat].
    - now exists wd.
    - exists (wd ++ "/" ++ e). split; auto. destruct wd; [discriminate|]. exact R. }
  destruct J as (p & -> & Rp). rewrite locate_clean. unfold path_Clean, locate. rewrite Rp. split; auto.
  apply Forall_rev. pose proof (pushes_kept true (split "/" p) [] ltac:(constructor)) as K.
  pose proof (pushes_rooted (split "/" p) [] ltac:(constructor)) as D.
  pose proof (pushes_no_slash true (split "/" p) [] (split_no_char "/" p) ltac:(constructor)) as S.
  set (f := fold_left _ _ _) in *. clearbody f. clear - K D S. induction f as [|x f IH]; constructor.
  - inversion K as [|? ? (K1 & K2)]; inversion D; inversion S; subst. repeat split; auto.
  - inversion K; inversion D; inversion S; auto.
Qed.

Lemma under_absolute B L : Forall plain_name L -> under B ("/" ++ join "/" L) = (B ++ L)%list.
Proof.
  intros H. unfold under. rewrite split_cons_slash. cbn [fold_left]. unfold push at 2. cbn [String.eqb orb].
  destruct L as [|a L'] eqn:E; [cbn; now rewrite rev_involutive, app_nil_r|]. rewrite <- E in *.
  rewrite (split_join_slash L); [|now subst|eapply Forall_impl; [|exact H]; intros x X; apply X].
  rewrite pushes_plain.
  - now rewrite rev_app_distr, !rev_involutive.
  - eapply Forall_impl; [|exact H]. intros x X; split; apply X.
  - eapply Forall_impl; [|exact H]. intros x X; apply X.
Qed.

Lemma trail_rooted wd e cwd k : is_rooted wd = true ->
  locate cwd (trail wd e k) = (times k (locate cwd wd) ++ place (locate cwd wd) e)%list.
Proof.
  intros R. assert (W : wd <> "") by (intros ->; discriminate). rewrite place_under. induction k as [|k IH].
  - cbn [trail times app]. apply locate_join. now left.
  - change (trail wd e (S k)) with (path_Join [wd; trail wd e k]). rewrite locate_join by now left.
    assert (X : exists z, trail wd e k = path_Join [wd; z]) by (destruct k; [now exists e|now exists (trail wd e k)]).
    destruct X as (z & X). destruct (rooted_canonical wd z cwd R) as (C & P). rewrite <- X in *.
    rewrite C, under_absolute by auto. rewrite IH. cbn [times]. now rewrite app_assoc.
Qed.

Lemma unrooted_join wd e : wd <> "" -> is_rooted wd = false -> is_rooted (path_Join [wd; e]) = false.
Proof.
  intros W R. assert (J : exists p, path_Join [wd; e] = path_Clean p /\ is_rooted p = false).
  { unfold path_Join. cbn [filter]. pose proof W as W'. apply String.eqb_neq in W. rewrite W. cbn [negb]. destruct (String.eqb e ""); cbn [negb join String.concat].
    - now exists wd.
    - exists (wd ++ "/" ++ e). split; auto. destruct wd; [congruence|]. exact R. }
  destruct J as (p & -> & Rp). unfold path_Clean. rewrite Rp.
  pose proof (pushes_kept false (split "/" p) [] ltac:(constructor)) as K.
  pose proof (pushes_no_slash false (split "/" p) [] (split_no_char "/" p) ltac:(constructor)) as S.
  apply Forall_rev in K, S. destruct (rev (fold_left (push false) (split "/" p) [])) as [|a l]; auto.
  rewrite is_rooted_join. inversion K as [|? ? (K1 & _)]; inversion S; subst.
  destruct l; [now apply rooted_no_slash|]. apply String.eqb_neq in K1. now rewrite K1, rooted_no_slash.
Qed.

Lemma trail_unrooted wd e k : wd <> "" -> is_rooted wd = false -> forall cwd,
  locate cwd (trail wd e k) = place (follow (S k) wd cwd) e.
Proof.
  intros W R. induction k as [|k IH]; intros cwd.
  - cbn [trail follow]. rewrite place_under. now apply locate_join; left.
  - change (trail wd e (S k)) with (path_Join [wd; trail wd e k]). rewrite locate_join by auto.
    assert (U : is_rooted (trail wd e k) = false) by (destruct k; now apply unrooted_join).
    change (follow (S (S k)) wd cwd) with (follow (S k) wd (locate cwd wd)). rewrite <- IH.
    unfold locate at 2, under. now rewrite U.
Qed.

(** ** What is written *)

Lemma json_step env n o x s w s' w' : out_generate o = GeJSON x -> runGenerate env n o s w = (Ok tt, s', w') ->
  let p := path_Join [sv_workDir s; with_extension json_endings x] in
  s' = with_outputs (set_nth n (mkOutput (out_mode o) (GeJSON p) (out_config o)) (sv_outputs s)) s /\
  w_cwd w' = w_cwd w /\ kind_at (locate (w_cwd w) p) (w_fs w') = Some (KFile (CResults (sv_routes s) (sv_components s))).
Proof.
  intros O E p. unfold runGenerate in E. rewrite O in E. unfold generateJSON, abind at 1, service in E.
  rewrite jsonPath_spec in E. fold json_endings in E. fold p in E. apply bind_ok in E as ([] & s1 & w1 & E1 & E2). injection E1 as <- <-.
  apply writefile_ok in E2 as (-> & C & _ & K). split; [reflexivity|]. split; auto.
  rewrite K. rewrite is_prefix_refl. reflexivity.
Qed.

Lemma json_again P n k s w s' w' o x :
  sv_workDir s <> "" -> nth_error (sv_outputs s) n = Some o -> out_generate o = GeJSON x -> again P n (S k) s w s' w' ->
  let p := trail (sv_workDir s) (with_extension json_endings x) k in
  s' = with_outputs (set_nth n (mkOutput (out_mode o) (GeJSON p) (out_config o)) (sv_outputs s)) s /\
  w_cwd w' = w_cwd w /\ kind_at (locate (w_cwd w) p) (w_fs w') = Some (KFile (CResults (sv_routes s) (sv_components s))).
Proof.
  intros W N O. revert s' w'. induction k as [|k IH]; intros s' w' A.
  - inversion A as [|? ? ? s1 w1 env o1 ? ? A0 PE N1 E]; subst. inversion A0; subst. rewrite N in N1. injection N1 as <-.
    exact (json_step env n o x _ _ _ _ O E).
  - inversion A as [|? ? ? s1 w1 env o1 ? ? A0 PE N1 E]; subst. destruct (IH _ _ A0) as (-> & C & K).
    cbn [with_outputs with_io sv_outputs] in N1. rewrite (nth_set_nth n _ o) in N1 by auto. injection N1 as <-.
    apply (json_step env n _ (trail (sv_workDir s) (with_extension json_endings x) k)) in E as (-> & C' & K'); auto.
    cbn [with_outputs with_io sv_outputs sv_workDir sv_routes sv_components out_mode out_config] in *.
    rewrite (json_id _ x k W) in K'. rewrite (json_id _ x k W).
    rewrite C in *. split; [|split; auto]. now rewrite set_set_nth.
Qed.

Lemma openapi_step env n o x s w s' w' : out_generate o = GeOpenAPI x -> runGenerate env n o s w = (Ok tt, s', w') ->
  let e := with_extension openapi_endings x in
  let p := path_Join [sv_workDir s; e] in
  let custom := match sv_memo s with Some c => c | None => sv_customTypes s end in
  exists d c names,
    buildDocument (e_orders env) custom (sv_config s) (sv_routes s) (sv_components s) (w_names w) = Ok (d, c, names) /\
    s' = with_outputs (set_nth n (mkOutput (out_mode o) (GeOpenAPI p) (out_config o)) (sv_outputs s))
           (with_memo (Some custom) (with_config (Some c) s)) /\
    w_cwd w' = w_cwd w /\ w_names w' = names /\
    kind_at (locate (w_cwd w) p) (w_fs w') = Some (KFile (CDocument (is_yaml e) d)).
Proof.
  intros O E e p custom. unfold runGenerate in E. rewrite O in E. unfold generateOpenAPI, abind at 1, service in E.
  rewrite openapiPath_spec in E. fold custom openapi_endings in E. fold e in E. fold p in E. apply bind_ok in E as (((d & c) & names) & s1 & w1 & E1 & E).
  injection E1 as E1 <- <-. exists d, c, names. split; auto. cbn [fst snd] in E.
  apply bind_ok in E as ([] & s2 & w2 & E2 & E). injection E2 as <- <-.
  apply bind_ok in E as ([] & s3 & w3 & E3 & E). injection E3 as <- <-.
  assert (NM : w_names w' = names).
  { unfold os_WriteFile, os_Create in E. apply bind_ok in E as ([] & s4 & w4 & E4 & E5).
    unfold call_tree in E4. destruct (e_fault _ _); [discriminate|]. destruct (create _ _ _); [|discriminate].
    injection E4 as <- <-. unfold file_Write in E5. destruct (e_fault _ _); [discriminate|]. destruct (write _ _ _); [|discriminate].
    injection E5 as <- <-. reflexivity. }
  apply writefile_ok in E as (-> & C & _ & K). split; [reflexivity|]. split; auto. split; auto.
  rewrite K. cbn [w_cwd w_set_names]. now rewrite is_prefix_refl.
Qed.

(** Building the document again. *)
Lemma build_again o o' custom config routes components names0 d c names :
  valid_orders o -> valid_orders o' -> (forall s l, o_sort o s l = o_sort o' s l) ->
  parsed_components components -> unambiguous components -> NoDup (map comp_key components) -> msorted names0 ->
  (forall c, In c components -> order_safe c) ->
  buildDocument o custom config routes components names0 = Ok (d, c, names) ->
  (forall r op, In r routes -> documents d r op ->
     Forall unbound (rt_queryParams r) \/ NoDup (map pa_name (op_parameters op))) ->
  buildDocument o' custom (Some c) routes components names = Ok (d, c, names).
Proof.
  intros Ho Ho' Hsort Hp Hu HN Hm Hs E Hop.
  assert (E' : buildDocument o custom (Some c) routes components names = Ok (d, c, names)).
  { unfold buildDocument in *. destruct config as [cf|]; [|discriminate].
    destruct (makeCollisionSafeNames o components names0) as [nm| | |] eqn:EN; cbn [bind] in *; try discriminate.
    injection E as Ed Ec En. subst nm. rewrite (make_names_again o o components names0 names) by auto. cbn [bind].
    rewrite <- Ec, <- Ed. cbn [c_description c_title c_version c_contact c_license c_secure c_host c_basePath c_port].
    destruct (String.eqb (c_description cf) "") eqn:ED; [reflexivity|]. rewrite ED. reflexivity. }
  apply (build_order o o'); auto.
  unfold buildDocument in E. destruct config as [cf|]; [|discriminate].
  destruct (makeCollisionSafeNames o components names0) as [nm| | |] eqn:EN; cbn [bind] in *; try discriminate.
  injection E as _ _ <-. now apply make_names_sorted in EN.
Qed.

Lemma openapi_again (P : Env -> Prop) n k s w s1 w1 s' w' o x :
  sv_workDir s <> "" -> nth_error (sv_outputs s) n = Some o -> out_generate o = GeOpenAPI x ->
  (forall env env', P env -> P env' -> valid_orders (e_orders env) /\ forall s l, o_sort (e_orders env) s l = o_sort (e_orders env') s l) ->
  parsed_components (sv_components s) -> unambiguous (sv_components s) -> NoDup (map comp_key (sv_components s)) -> msorted (w_names w) ->
  (forall c, In c (sv_components s) -> order_safe c) ->
  let e := with_extension openapi_endings x in
  let p := fun k => trail (sv_workDir s) e k in
  forall d,
  again P n 1 s w s1 w1 -> kind_at (locate (w_cwd w) (p 0)) (w_fs w1) = Some (KFile (CDocument (is_yaml e) d)) ->
  (forall r op, In r (sv_routes s) -> documents d r op ->
     Forall unbound (rt_queryParams r) \/ NoDup (map pa_name (op_parameters op))) ->
  again P n (S k) s w s' w' ->
  (exists o', nth_error (sv_outputs s') n = Some o' /\ out_generate o' = GeOpenAPI (p k)) /\
  sv_workDir s' = sv_workDir s /\ w_cwd w' = w_cwd w /\
  kind_at (locate (w_cwd w) (p k)) (w_fs w') = Some (KFile (CDocument (is_yaml e) d)).
Proof.
  intros W N O HP Hp Hu HN Hm Hs e p d A1 K1 Hop.
  set (custom := match sv_memo s with Some c => c | None => sv_customTypes s end).
  inversion A1 as [|? ? ? s0 w0 env0 o0 ? ? A0 PE0 N0 E0]; subst. inversion A0; subst. rewrite N in N0. injection N0 as <-.
  destruct (openapi_step env0 n o x _ _ _ _ O E0) as (d0 & c & names & B0 & _ & _ & _ & K0). cbn [p trail] in K1.
  fold e in K0. rewrite K1 in K0. injection K0 as <-. fold custom in B0.
  assert (X : forall k s' w', again P n (S k) s0 w0 s' w' ->
    s' = with_outputs (set_nth n (mkOutput (out_mode o) (GeOpenAPI (p k)) (out_config o)) (sv_outputs s0))
           (with_memo (Some custom) (with_config (Some c) s0)) /\
    w_cwd w' = w_cwd w0 /\ w_names w' = names /\
    kind_at (locate (w_cwd w0) (p k)) (w_fs w') = Some (KFile (CDocument (is_yaml e) d))).
  { clear k s' w'. induction k as [|k IH]; intros s' w' A.
    - inversion A as [|? ? ? s2 w2 env o1 ? ? A2 PE N1 E]; subst. inversion A2; subst. rewrite N in N1. injection N1 as <-.
      destruct (openapi_step env n o x _ _ _ _ O E) as (d' & c' & names' & B' & S' & C' & M' & K'). fold custom in B'.
      apply (build_order (e_orders env0) (e_orders env)) in B0; auto; try (eapply HP; eassumption).
      rewrite B0 in B'. injection B' as <- <- <-. auto.
    - inversion A as [|? ? ? s2 w2 env o1 ? ? A2 PE N1 E]; subst. destruct (IH _ _ A2) as (-> & C & M & K).
      cbn [with_outputs with_io sv_outputs with_memo with_config] in N1. rewrite (nth_set_nth n _ o) in N1 by auto. injection N1 as <-.
      apply (openapi_step env n _ (p k)) in E as (d' & c' & names' & B' & S' & C' & M' & K'); auto.
      cbn [with_outputs with_io sv_outputs sv_workDir sv_routes sv_components out_mode out_config with_memo with_config sv_memo sv_config] in *.
      rewrite M in B'.
      apply (build_again (e_orders env0) (e_orders env)) in B0; auto; try (eapply HP; eassumption).
      rewrite B0 in B'. injection B' as <- <- <-.
      assert (I : with_extension openapi_endings (p k) = p k).
      { now apply openapi_id. }
      rewrite I in *. rewrite C in *.
      split; [|split; [|split]]; auto.
      + rewrite S'. now rewrite set_set_nth.
      + unfold p in K' at 2. unfold e in K'. rewrite trail_yaml in K' by auto. exact K'. }
  intros A. destruct (X k s' w' A) as (-> & C & _ & K). split; [|auto].
  eexists. split; [cbn [with_outputs with_io sv_outputs]; apply (nth_set_nth n _ o); auto|]. reflexivity.
Qed.

Lemma azure_again P n k s w s' w' o d :
  sv_workDir s <> "" -> nth_error (sv_outputs s) n = Some o -> out_generate o = GeAzure d -> again P n (S k) s w s' w' ->
  s' = s /\ w_cwd w' = w_cwd w /\ below (place (work_dir s w) d) (sv_routes s) (w_fs w').
Proof.
  intros W N O. assert (X : forall k s' w', again P n k s w s' w' -> s' = s /\ w_cwd w' = w_cwd w).
  { clear k s' w'. intros k s' w' A. induction A as [|k s w s1 w1 env o1 s2 w2 A IH PE N1 E]; auto.
    destruct (IH W N) as (-> & C). rewrite N in N1. injection N1 as <-. unfold runGenerate in E. rewrite O in E.
    apply same_service_of in E as (-> & C'); [split; [auto|congruence]|]. apply p_generateAzure; same_svc. }
  intros A. inversion A as [|? ? ? s1 w1 env o1 ? ? A0 PE N1 E]; subst. destruct (X _ _ _ A0) as (-> & C).
  destruct (X _ _ _ A) as (-> & C'). rewrite N in N1. injection N1 as <-. unfold runGenerate in E. rewrite O in E.
  apply generateAzure_ok in E as (_ & B & _); auto. split; auto. split; auto. unfold work_dir in *. now rewrite C in B.
Qed.

Lemma times_length k l : List.length (times k l) = k * List.length l.
Proof. induction k; cbn [times]; auto. rewrite app_length, IHk. reflexivity. Qed.
