(** Generation again and again, other outputs in between. *)
From Coq Require Import List String Ascii Bool ZArith Arith Lia.
From Verif Require Import BaseStr BaseMap M_Types M_Collect M_OpenAPI M_Parse M_Clean M_FS M_Service.
From Verif Require Import S_Collect S_Names S_OpenAPI S_Service S_Cache S_Files S_Azure S_Again S_Mixed.
From Verif Require Import P_FS P_Path P_Parse P_Names P_Schema P_Act P_Frame P_Load P_Azure P_Again.
Import ListNotations.
Local Open Scope string_scope.

Lemma count_app n l l' : count n (l ++ l') = count n l + count n l'.
Proof. induction l as [|m l IH]; cbn [count app]; auto. rewrite IH. destruct (Nat.eqb m n); auto. Qed.
Lemma count_snoc n l m : count n (l ++ [m]) = if Nat.eqb m n then S (count n l) else count n l.
Proof. rewrite count_app. cbn [count]. destruct (Nat.eqb m n); lia. Qed.

Lemma trail_place s w e k : sv_workDir s <> "" -> locate (w_cwd w) (trail (sv_workDir s) e k) = written_place s w e k.
Proof.
  intros W. unfold written_place. destruct (is_rooted (sv_workDir s)) eqn:R; [now apply trail_rooted|now apply trail_unrooted].
Qed.

(** The function an output holds after [k] calls of it. *)
Definition moved (wd : string) (g : generateFn) (k : nat) : generateFn :=
  match g, k with
  | GeJSON x, S k => GeJSON (trail wd (with_extension json_endings x) k)
  | GeOpenAPI x, S k => GeOpenAPI (trail wd (with_extension openapi_endings x) k)
  | _, _ => g
  end.

Definition quiet (s : Service) (w : World) (s' : Service) (w' : World) : Prop :=
  s' = s /\ w_cwd w' = w_cwd w /\ w_names w' = w_names w.
Ltac quiet_tac := unfold quiet; intuition congruence.
Lemma quiet_of (m : act unit) s w r s' w' : preserves quiet m s w -> m s w = (r, s', w') -> quiet s w s' w'.
Proof. intros P E. unfold preserves, after_service, after_world in P. now rewrite E in P. Qed.

Lemma writefile_quiet env p c s w s' w' : os_WriteFile env p c s w = (Ok tt, s', w') -> quiet s w s' w'.
Proof. intros E. refine (quiet_of _ _ _ _ _ _ _ E). apply p_writefile; quiet_tac. Qed.

Lemma step_kept env n o s w s' w' :
  runGenerate env n o s w = (Ok tt, s', w') -> nth_error (sv_outputs s) n = Some o ->
  sv_workDir s' = sv_workDir s /\ sv_routes s' = sv_routes s /\ sv_components s' = sv_components s /\
  sv_customTypes s' = sv_customTypes s /\ w_cwd w' = w_cwd w /\
  List.length (sv_outputs s') = List.length (sv_outputs s) /\
  (forall m, m <> n -> nth_error (sv_outputs s') m = nth_error (sv_outputs s) m) /\
  (exists o', nth_error (sv_outputs s') n = Some o' /\ out_generate o' = moved (sv_workDir s) (out_generate o) 1) /\
  ((forall x, out_generate o <> GeOpenAPI x) -> sv_config s' = sv_config s /\ sv_memo s' = sv_memo s /\ w_names w' = w_names w).
Proof.
  intros E N. destruct (out_generate o) as [|x|x|d|u] eqn:O.
  - unfold runGenerate in E. rewrite O in E. discriminate.
  - destruct (openapi_step env n o x _ _ _ _ O E) as (d & c & names & _ & -> & C & _ & _).
    cbn [with_outputs with_io sv_outputs sv_workDir sv_routes sv_components sv_customTypes with_memo with_config].
    do 5 (split; [auto|]). split; [now rewrite set_nth_length|]. split; [intros m M; apply nth_set_other; auto|]. split.
    + eexists. split; [apply (nth_set_nth n _ o); auto|]. reflexivity.
    + intros X. now destruct (X x).
  - assert (NM : w_names w' = w_names w).
    { unfold runGenerate in E. rewrite O in E. unfold generateJSON, abind at 1, service in E.
      apply bind_ok in E as ([] & s1 & w1 & E1 & E2). injection E1 as <- <-. now apply writefile_quiet in E2 as (_ & _ & E2). }
    destruct (json_step env n o x _ _ _ _ O E) as (-> & C & _).
    cbn [with_outputs with_io sv_outputs sv_workDir sv_routes sv_components sv_customTypes sv_config sv_memo].
    do 5 (split; [auto|]). split; [now rewrite set_nth_length|]. split; [intros m M; apply nth_set_other; auto|]. split.
    + eexists. split; [apply (nth_set_nth n _ o); auto|]. reflexivity.
    + auto.
  - unfold runGenerate in E. rewrite O in E. apply quiet_of in E as (-> & C & M); [|apply p_generateAzure; quiet_tac].
    do 7 (split; [auto|]). split; [exists o; now split|auto].
  - unfold runGenerate in E. rewrite O in E. unfold aoutcome in E. injection E as _ <- <-.
    do 7 (split; [auto|]). split; [exists o; now split|auto].
Qed.

Definition kept (l : list nat) (s : Service) (w : World) (s' : Service) (w' : World) : Prop :=
  sv_workDir s' = sv_workDir s /\ sv_routes s' = sv_routes s /\ sv_components s' = sv_components s /\
  sv_customTypes s' = sv_customTypes s /\ w_cwd w' = w_cwd w /\
  List.length (sv_outputs s') = List.length (sv_outputs s) /\
  (forall n o, nth_error (sv_outputs s) n = Some o ->
     exists o', nth_error (sv_outputs s') n = Some o' /\ out_generate o' = moved (sv_workDir s) (out_generate o) (count n l)).

Lemma moved_more wd g k : wd <> "" -> moved wd (moved wd g k) 1 = moved wd g (S k).
Proof.
  intros W. destruct g as [|x|x|d|u]; destruct k as [|k]; try reflexivity; cbn [moved].
  - change (GeOpenAPI (path_Join [wd; with_extension openapi_endings (trail wd (with_extension openapi_endings x) k)]) =
            GeOpenAPI (path_Join [wd; trail wd (with_extension openapi_endings x) k])). now rewrite openapi_id.
  - change (GeJSON (path_Join [wd; with_extension json_endings (trail wd (with_extension json_endings x) k)]) =
            GeJSON (path_Join [wd; trail wd (with_extension json_endings x) k])). now rewrite json_id.
Qed.

Lemma calls_kept P s w l s' w' : sv_workDir s <> "" -> calls P s w l s' w' -> kept l s w s' w'.
Proof.
  intros W A. induction A as [|l s1 w1 w2 A IH C M|l n s1 w1 env o s2 w2 A IH PE N E].
  - unfold kept. do 6 (split; [auto|]). intros n o N. exists o. split; auto. cbn [count]. now destruct (out_generate o).
  - unfold kept in *. rewrite C. exact IH.
  - destruct IH as (I1 & I2 & I3 & I4 & I5 & I6 & I7).
    destruct (step_kept env n o _ _ _ _ E N) as (S1 & S2 & S3 & S4 & S5 & S6 & S7 & S8 & _).
    unfold kept. do 6 (split; [congruence|]). intros m om M. rewrite count_snoc.
    destruct (Nat.eqb_spec n m) as [->|D].
    + destruct S8 as (o' & N' & G). exists o'. split; auto. rewrite G. destruct (I7 m om M) as (o1 & N1 & G1).
      rewrite N in N1. injection N1 as <-. rewrite G1, I1. now apply moved_more.
    + rewrite S7 by auto. apply I7. exact M.
Qed.

(** ** What is written *)

Lemma mixed_json P l n s w s' w' o x :
  sv_workDir s <> "" -> nth_error (sv_outputs s) n = Some o -> out_generate o = GeJSON x -> called_after P l n s w s' w' ->
  kind_at (locate (w_cwd w) (trail (sv_workDir s) (with_extension json_endings x) (count n l))) (w_fs w') =
    Some (KFile (CResults (sv_routes s) (sv_components s))).
Proof.
  intros W N O (s1 & w1 & env & o1 & A & PE & N1 & E).
  destruct (calls_kept P s w l s1 w1 W A) as (I1 & I2 & I3 & I4 & I5 & I6 & I7).
  destruct (I7 n o N) as (o1' & N1' & G). rewrite N1 in N1'. injection N1' as <-. rewrite O in G.
  destruct (count n l) as [|k]; cbn [moved] in G.
  - destruct (json_step env n o1 _ _ _ _ _ G E) as (_ & _ & K). rewrite I1, I2, I3, I5 in K. exact K.
  - destruct (json_step env n o1 _ _ _ _ _ G E) as (_ & _ & K). rewrite I1, I2, I3, I5, json_id in K by auto. exact K.
Qed.

Lemma mixed_azure P l n s w s' w' o d :
  sv_workDir s <> "" -> nth_error (sv_outputs s) n = Some o -> out_generate o = GeAzure d -> called_after P l n s w s' w' ->
  below (place (work_dir s w) d) (sv_routes s) (w_fs w').
Proof.
  intros W N O (s1 & w1 & env & o1 & A & PE & N1 & E).
  destruct (calls_kept P s w l s1 w1 W A) as (I1 & I2 & I3 & I4 & I5 & I6 & I7).
  destruct (I7 n o N) as (o1' & N1' & G). rewrite N1 in N1'. injection N1' as <-. rewrite O in G.
  assert (G' : out_generate o1 = GeAzure d) by (rewrite G; reflexivity).
  unfold runGenerate in E. rewrite G' in E. apply generateAzure_ok in E as (_ & B & _); [|congruence].
  unfold work_dir in *. now rewrite I1, I2, I5 in B.
Qed.

(** The document. *)
Section document.
  Context (P : Env -> Prop) (s : Service) (w : World) (W : sv_workDir s <> "").
  Context (HP : forall env env', P env -> P env' ->
             valid_orders (e_orders env) /\ forall s l, o_sort (e_orders env) s l = o_sort (e_orders env') s l).
  Context (Hp : parsed_components (sv_components s)) (Hu : unambiguous (sv_components s)).
  Context (HN : NoDup (map comp_key (sv_components s))) (Hm : msorted (w_names w)).
  Context (Hs : forall c, In c (sv_components s) -> order_safe c).
  Let custom := match sv_memo s with Some c => c | None => sv_customTypes s end.
  Context (env0 : Env) (PE0 : P env0) (d : Document) (c : Config) (names : list (string * string)).
  Context (B0 : buildDocument (e_orders env0) custom (sv_config s) (sv_routes s) (sv_components s) (w_names w) = Ok (d, c, names)).
  Context (Hop : forall r op, In r (sv_routes s) -> documents d r op ->
             Forall unbound (rt_queryParams r) \/ NoDup (map pa_name (op_parameters op))).

  (** Either no document was written yet or the first one left its traces. *)
  Definition ready (s' : Service) (w' : World) : Prop :=
    (sv_config s' = sv_config s /\ sv_memo s' = sv_memo s /\ w_names w' = w_names w) \/
    (sv_config s' = Some c /\ sv_memo s' = Some custom /\ w_names w' = names).

  Lemma ready_builds env s' w' : P env -> ready s' w' -> sv_customTypes s' = sv_customTypes s ->
    buildDocument (e_orders env) (match sv_memo s' with Some c => c | None => sv_customTypes s' end) (sv_config s')
      (sv_routes s) (sv_components s) (w_names w') = Ok (d, c, names).
  Proof.
    intros PE [(C & M & NM)|(C & M & NM)] CT; rewrite C, M, NM.
    - rewrite CT. fold custom. apply (build_order (e_orders env0) (e_orders env)); auto; try (eapply HP; eassumption).
    - apply (build_again (e_orders env0) (e_orders env) custom (sv_config s) _ _ (w_names w)); auto; try (eapply HP; eassumption).
  Qed.

  Lemma calls_ready l s' w' : calls P s w l s' w' -> ready s' w'.
  Proof.
    intros A. induction A as [|l s1 w1 w2 A IH C M|l n s1 w1 env o s2 w2 A IH PE N E].
    - left. auto.
    - unfold ready in *. now rewrite M.
    - destruct (calls_kept P s w l s1 w1 W A) as (I1 & I2 & I3 & I4 & I5 & I6 & I7).
      destruct (step_kept env n o _ _ _ _ E N) as (_ & _ & _ & _ & _ & _ & _ & _ & Q).
      destruct (out_generate o) as [|x|x|dd|u] eqn:O;
        try (destruct Q as (Q1 & Q2 & Q3); [intros x0; discriminate|]; unfold ready in *; now rewrite Q1, Q2, Q3).
      destruct (openapi_step env n o x _ _ _ _ O E) as (d' & c' & names' & B' & -> & _ & M' & _).
      rewrite I2, I3 in B'. rewrite (ready_builds env s1 w1 PE IH I4) in B'. injection B' as <- <- <-.
      right. split; [reflexivity|]. split; [|exact M'].
      cbn [with_outputs with_io with_memo with_config sv_memo].
      destruct IH as [(C & M & NM)|(C & M & NM)]; rewrite M; [|reflexivity]. unfold custom. rewrite I4. reflexivity.
  Qed.

  Lemma mixed_openapi l n s' w' o x :
    nth_error (sv_outputs s) n = Some o -> out_generate o = GeOpenAPI x -> called_after P l n s w s' w' ->
    let e := with_extension openapi_endings x in
    kind_at (locate (w_cwd w) (trail (sv_workDir s) e (count n l))) (w_fs w') = Some (KFile (CDocument (is_yaml e) d)).
  Proof.
    intros N O (s1 & w1 & env & o1 & A & PE & N1 & E) e.
    destruct (calls_kept P s w l s1 w1 W A) as (I1 & I2 & I3 & I4 & I5 & I6 & I7).
    destruct (I7 n o N) as (o1' & N1' & G). rewrite N1 in N1'. injection N1' as <-. rewrite O in G.
    pose proof (ready_builds env s1 w1 PE (calls_ready l s1 w1 A) I4) as B. 
    destruct (count n l) as [|k]; cbn [moved] in G.
    - destruct (openapi_step env n o1 _ _ _ _ _ G E) as (d' & c' & names' & B' & _ & _ & _ & K).
      rewrite I2, I3, B in B'. injection B' as <- _ _. rewrite I1, I5 in K. exact K.
    - destruct (openapi_step env n o1 _ _ _ _ _ G E) as (d' & c' & names' & B' & _ & _ & _ & K).
      rewrite I2, I3, B in B'. injection B' as <- _ _. rewrite I1, I5, openapi_id, trail_yaml in K by auto. exact K.
  Qed.
End document.

(** ** Runs of generation *)

Lemma runs_calls (P : Env -> Prop) env s w : P env -> forall r pre l s1 w1 s2 w2,
  sv_workDir s <> "" -> calls P s w l s1 w1 ->
  (forall i o, nth_error r i = Some o -> nth_error (sv_outputs s1) (pre + i) = Some o) ->
  runGenerates env pre r s1 w1 = (Ok tt, s2, w2) -> calls P s w (l ++ seq pre (List.length r)) s2 w2.
Proof.
  intros PE. induction r as [|o r IH]; intros pre l s1 w1 s2 w2 W A N E; cbn [runGenerates] in E.
  - injection E as <- <-. cbn. now rewrite app_nil_r.
  - apply bind_ok in E as ([] & s3 & w3 & E3 & E). unfold log in E3. injection E3 as <- <-.
    apply bind_ok in E as ([] & s4 & w4 & E4 & E).
    assert (N0 : nth_error (sv_outputs s1) pre = Some o) by (rewrite <- (Nat.add_0_r pre); now apply N).
    cbn [List.length seq]. change (pre :: seq (S pre) (List.length r)) with ([pre] ++ seq (S pre) (List.length r))%list.
    rewrite app_assoc. eapply IH; [exact W| | |exact E].
    + eapply calls_more; [|exact PE|exact N0|exact E4]. eapply calls_files; [exact A|reflexivity|reflexivity].
    + intros i o' I. destruct (step_kept env pre o _ _ _ _ E4 N0) as (_ & _ & _ & _ & _ & _ & S7 & _).
      rewrite S7 by lia. replace (S pre + i) with (pre + S i) by lia. now apply N.
Qed.

Lemma generations_calls P s w k s' w' : sv_workDir s <> "" -> generations P s w k s' w' ->
  calls P s w (rounds k (List.length (sv_outputs s))) s' w'.
Proof.
  intros W A. induction A as [|k s1 w1 env s2 w2 A IH PE E]; [constructor|].
  unfold Generate in E. apply bind_ok in E as ([] & s3 & w3 & E3 & E). unfold log in E3. injection E3 as <- <-.
  unfold abind at 1, service in E. apply bind_ok in E as ([] & s4 & w4 & E4 & E).
  destruct (calls_kept P s w _ s1 w1 W IH) as (_ & _ & _ & _ & _ & I6 & _).
  eapply (runs_calls P env s w PE _ 0) in E4; [|exact W| |intros i o I; exact I].
  2:{ eapply calls_files; [exact IH|reflexivity|reflexivity]. }
  rewrite I6 in E4. cbn [rounds]. unfold cacheIfEnabled, abind at 1, service in E.
  destruct (sv_cacheEnabled s4).
  - apply bind_ok in E as ([] & s5 & w5 & E5 & E). unfold log in E5. injection E5 as <- <-.
    eapply calls_files in E4. 2:{ instantiate (1 := mkWorld (w_fs w4) (w_cwd w4) (w_names w4) (w_clock w4) (w_past w4) (EvCache :: w_log w4)). reflexivity. } 2: reflexivity.
    assert (Q : quiet s4 (mkWorld (w_fs w4) (w_cwd w4) (w_names w4) (w_clock w4) (w_past w4) (EvCache :: w_log w4)) s2 w2).
    { refine (quiet_of _ _ _ _ _ _ _ E). apply p_cache; quiet_tac. }
    destruct Q as (-> & C & M). eapply calls_files; eauto.
  - injection E as <- <-. exact E4.
Qed.

Lemma runGenerates_snoc env o : forall r n s w s' w',
  runGenerates env n (r ++ [o]) s w = (Ok tt, s', w') ->
  exists s1 w1, runGenerates env n r s w = (Ok tt, s1, w1) /\
    runGenerate env (n + List.length r) o s1
      (mkWorld (w_fs w1) (w_cwd w1) (w_names w1) (w_clock w1) (w_past w1) (EvOutput (out_mode o) :: w_log w1)) = (Ok tt, s', w').
Proof.
  induction r as [|o' r IH]; intros n s w s' w' E; cbn [runGenerates app] in E.
  - apply bind_ok in E as ([] & s1 & w1 & E1 & E). unfold log in E1. injection E1 as <- <-.
    apply bind_ok in E as ([] & s2 & w2 & E2 & E). injection E as <- <-. exists s, w. split; [reflexivity|].
    cbn [List.length]. now rewrite Nat.add_0_r.
  - apply bind_ok in E as ([] & s1 & w1 & E1 & E). apply bind_ok in E as ([] & s2 & w2 & E2 & E).
    apply IH in E as (s3 & w3 & E3 & E). exists s3, w3. split.
    + cbn [runGenerates]. unfold abind at 1. rewrite E1. unfold abind at 1. rewrite E2. exact E3.
    + cbn [List.length]. rewrite Nat.add_succ_r. exact E.
Qed.

Lemma count_seq n : forall m a, count n (seq a m) = if Nat.leb a n && Nat.ltb n (a + m) then 1 else 0.
Proof.
  induction m as [|m IH]; intros a; cbn [seq count].
  - destruct (Nat.leb_spec a n), (Nat.ltb_spec n (a + 0)); cbn [andb]; auto; lia.
  - rewrite IH. destruct (Nat.eqb_spec a n), (Nat.leb_spec a n), (Nat.leb_spec (S a) n), (Nat.ltb_spec n (S a + m)), (Nat.ltb_spec n (a + S m));
      cbn [andb]; auto; lia.
Qed.
Lemma count_rounds n m k : n < m -> count n (rounds k m) = k.
Proof.
  intros H. induction k as [|k IH]; cbn [rounds]; auto. rewrite count_app, IH, count_seq.
  destruct (Nat.leb_spec 0 n), (Nat.ltb_spec n (0 + m)); cbn [andb]; lia.
Qed.

Lemma nth_firstn {A} (l : list A) n i (x : A) : nth_error (firstn n l) i = Some x -> nth_error l i = Some x.
Proof.
  revert n i. induction l as [|a l IH]; intros [|n] [|i] H; cbn in *; try discriminate; auto. now apply IH in H.
Qed.

Lemma runs_later env : forall r pre s1 w1 s2 w2,
  (forall i o, nth_error r i = Some o -> nth_error (sv_outputs s1) (pre + i) = Some o) ->
  runGenerates env pre r s1 w1 = (Ok tt, s2, w2) ->
  forall m, pre + List.length r <= m -> nth_error (sv_outputs s2) m = nth_error (sv_outputs s1) m.
Proof.
  induction r as [|o r IH]; intros pre s1 w1 s2 w2 N E m L; cbn [runGenerates] in E.
  - injection E as <- <-. reflexivity.
  - apply bind_ok in E as ([] & s3 & w3 & E3 & E). unfold log in E3. injection E3 as <- <-.
    apply bind_ok in E as ([] & s4 & w4 & E4 & E). cbn [List.length] in L.
    assert (N0 : nth_error (sv_outputs s1) pre = Some o) by (rewrite <- (Nat.add_0_r pre); now apply N).
    destruct (step_kept env pre o _ _ _ _ E4 N0) as (_ & _ & _ & _ & _ & _ & S7 & _).
    rewrite (IH (S pre) s4 w4 s2 w2) by (try exact E; try lia; intros i o' I; rewrite S7 by lia;
      replace (S pre + i) with (pre + S i) by lia; now apply N).
    apply S7. lia.
Qed.

(** Output number [n] in the run after [k] runs. *)
Lemma round_called (P : Env -> Prop) s w k s1 w1 env n s2 w2 :
  sv_workDir s <> "" -> calls P s w (rounds k (List.length (sv_outputs s))) s1 w1 -> P env -> n < List.length (sv_outputs s) ->
  runGenerates env 0 (firstn (S n) (sv_outputs s1)) s1 w1 = (Ok tt, s2, w2) ->
  exists l, count n l = k /\ called_after P l n s w s2 w2.
Proof.
  intros W A PE L E.
  destruct (calls_kept P s w _ s1 w1 W A) as (_ & _ & _ & _ & _ & I6 & _).
  destruct (nth_error (sv_outputs s1) n) as [o|] eqn:N; [|apply nth_error_None in N; lia].
  assert (F : firstn (S n) (sv_outputs s1) = (firstn n (sv_outputs s1) ++ [o])%list).
  { clear - N. revert N. generalize (sv_outputs s1). induction n as [|n IH]; intros [|a l] N; try discriminate.
    - injection N as ->. reflexivity.
    - cbn [firstn app]. f_equal. apply IH. exact N. }
  rewrite F in E. apply runGenerates_snoc in E as (s3 & w3 & E3 & E). cbn [Nat.add] in E.
  assert (LN : List.length (firstn n (sv_outputs s1)) = n) by (apply firstn_length_le; lia). rewrite LN in E.
  pose proof (runs_calls P env s w PE _ 0 _ _ _ _ _ W A (fun i o' I => nth_firstn _ n i o' I) E3) as A3.
  pose proof (runs_later env _ 0 _ _ _ _ (fun i o' I => nth_firstn _ n i o' I) E3 n ltac:(rewrite LN; cbn; lia)) as N3.
  rewrite LN in A3. exists (rounds k (List.length (sv_outputs s)) ++ seq 0 n)%list. split.
  - rewrite count_app, count_rounds, count_seq by auto. destruct (Nat.ltb_spec n (0 + n)); [lia|]. rewrite andb_false_r. lia.
  - exists s3. eexists. exists env, o. split; [eapply calls_files; [exact A3| |]|split; [exact PE|split; [|exact E]]]; try reflexivity.
    congruence.
Qed.

Lemma generation_called (P : Env -> Prop) s w k s1 w1 env n s2 w2 :
  sv_workDir s <> "" -> generations P s w k s1 w1 -> P env -> n < List.length (sv_outputs s) ->
  runGenerates env 0 (firstn (S n) (sv_outputs s1)) s1 w1 = (Ok tt, s2, w2) ->
  exists l, count n l = k /\ called_after P l n s w s2 w2.
Proof. intros W G. apply round_called; auto. now apply generations_calls. Qed.
