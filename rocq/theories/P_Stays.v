(** Files written by generation stay until the end of the run. *)
From Coq Require Import List String Ascii Bool ZArith Arith Lia.
From Verif Require Import BaseStr BaseMap M_Types M_Collect M_OpenAPI M_Parse M_Clean M_FS M_Service.
From Verif Require Import S_Collect S_Names S_OpenAPI S_Service S_Cache S_Files S_Azure S_Again S_Mixed.
From Verif Require Import P_FS P_Path P_Parse P_Names P_Schema P_Act P_Frame P_Load P_Azure P_Again P_Mixed.
Import ListNotations.
Local Open Scope string_scope.

Lemma writefile_stays env p x s w s' w' q c :
  os_WriteFile env p x s w = (Ok tt, s', w') -> q <> locate (w_cwd w) p -> kind_at q (w_fs w) = Some (KFile c) ->
  kind_at q (w_fs w') = Some (KFile c).
Proof.
  intros E D K. apply writefile_ok in E as (_ & _ & H & F). rewrite F.
  destruct (is_prefix (locate (w_cwd w) p) q) eqn:I; [|exact K].
  apply is_prefix_spec in I as (r & ->). exfalso. apply H. apply (kind_below _ r); [congruence|].
  intros ->. rewrite app_nil_r in D. congruence.
Qed.

Lemma step_stays env n o s w s' w' q c :
  runGenerate env n o s w = (Ok tt, s', w') ->
  (exists x, (out_generate o = GeJSON x /\ q <> locate (w_cwd w) (path_Join [sv_workDir s; with_extension json_endings x])) \/
             (out_generate o = GeOpenAPI x /\ q <> locate (w_cwd w) (path_Join [sv_workDir s; with_extension openapi_endings x]))) ->
  kind_at q (w_fs w) = Some (KFile c) -> kind_at q (w_fs w') = Some (KFile c).
Proof.
  intros E (x & [(O & D)|(O & D)]) K; unfold runGenerate in E; rewrite O in E.
  - unfold generateJSON, abind at 1, service in E. rewrite jsonPath_spec in E. fold json_endings in E.
    apply bind_ok in E as ([] & s1 & w1 & E1 & E2). injection E1 as <- <-. eapply writefile_stays; eauto.
  - unfold generateOpenAPI, abind at 1, service in E. rewrite openapiPath_spec in E. fold openapi_endings in E.
    apply bind_ok in E as (((d & cf) & names) & s1 & w1 & E1 & E). injection E1 as E1 <- <-. cbn [fst snd] in E.
    apply bind_ok in E as ([] & s2 & w2 & E2 & E). injection E2 as <- <-.
    apply bind_ok in E as ([] & s3 & w3 & E3 & E). injection E3 as <- <-.
    eapply writefile_stays; eauto.
Qed.

Lemma runGenerates_app env r' : forall r n s w s' w',
  runGenerates env n (r ++ r') s w = (Ok tt, s', w') ->
  exists s1 w1, runGenerates env n r s w = (Ok tt, s1, w1) /\ runGenerates env (n + List.length r) r' s1 w1 = (Ok tt, s', w').
Proof.
  induction r as [|o' r IH]; intros n s w s' w' E; cbn [runGenerates app] in E.
  - exists s, w. split; [reflexivity|]. cbn [List.length]. now rewrite Nat.add_0_r.
  - apply bind_ok in E as ([] & s1 & w1 & E1 & E). apply bind_ok in E as ([] & s2 & w2 & E2 & E).
    apply IH in E as (s3 & w3 & E3 & E). exists s3, w3. split.
    + cbn [runGenerates]. unfold abind at 1. rewrite E1. unfold abind at 1. rewrite E2. exact E3.
    + cbn [List.length]. rewrite Nat.add_succ_r. exact E.
Qed.

Section stays.
  Context (P : Env -> Prop) (env : Env) (PE : P env) (s : Service) (w : World) (W : sv_workDir s <> "") (k : nat) (q : list string) (c : content).
  Context (F : forall m o, nth_error (sv_outputs s) m = Some o -> one_file o).

  Lemma rest_stays : forall r pre l s1 w1 s2 w2,
    calls P s w l s1 w1 -> (forall m, pre <= m -> m < List.length (sv_outputs s) -> count m l = k) -> pre + List.length r = List.length (sv_outputs s) ->
    (forall i o, nth_error r i = Some o -> nth_error (sv_outputs s1) (pre + i) = Some o) ->
    (forall m o, pre <= m -> nth_error (sv_outputs s) m = Some o -> q <> file_of s w o k) ->
    runGenerates env pre r s1 w1 = (Ok tt, s2, w2) ->
    kind_at q (w_fs w1) = Some (KFile c) -> kind_at q (w_fs w2) = Some (KFile c).
  Proof.
    induction r as [|o r IH]; intros pre l s1 w1 s2 w2 A CN LN N D E K; cbn [runGenerates] in E.
    - injection E as <- <-. exact K.
    - apply bind_ok in E as ([] & s3 & w3 & E3 & E). unfold log in E3. injection E3 as <- <-.
      apply bind_ok in E as ([] & s4 & w4 & E4 & E). cbn [List.length] in LN.
      assert (N0 : nth_error (sv_outputs s1) pre = Some o) by (rewrite <- (Nat.add_0_r pre); now apply N).
      destruct (step_kept env pre o _ _ _ _ E4 N0) as (_ & _ & _ & _ & _ & _ & S7 & _).
      destruct (calls_kept P s w l s1 w1 W A) as (I1 & _ & _ & _ & I5 & _ & I7).
      destruct (nth_error (sv_outputs s) pre) as [o0|] eqn:O0; [|apply nth_error_None in O0; lia].
      destruct (I7 pre o0 O0) as (o' & N' & G). rewrite N0 in N'. injection N' as <-. rewrite CN in G by lia.
      apply (IH (S pre) (l ++ [pre])%list s4 w4 s2 w2); auto; try lia.
      + eapply calls_more; [|exact PE|exact N0|exact E4]. eapply calls_files; [exact A|reflexivity|reflexivity].
      + intros m M ML. rewrite count_snoc. destruct (Nat.eqb_spec pre m); [lia|]. apply CN; lia.
      + intros i o' I. rewrite S7 by lia. replace (S pre + i) with (pre + S i) by lia. now apply N.
      + intros m o' M. apply D. lia.
      + pose proof (D pre o0 (le_n _) O0) as Dp. unfold file_of in Dp.
        apply (step_stays env pre o _ _ _ _ q c E4); [|exact K].
        destruct (F pre o0 O0) as (x & [X|X]); rewrite X in *; rewrite <- trail_place in Dp by auto; cbn [w_cwd]; rewrite I1, I5.
        * exists (match k with O => x | S k => trail (sv_workDir s) (with_extension json_endings x) k end). left.
          destruct k as [|k']; cbn [moved] in G; (split; [exact G|]); [exact Dp|]. rewrite json_id by auto. exact Dp.
        * exists (match k with O => x | S k => trail (sv_workDir s) (with_extension openapi_endings x) k end). right.
          destruct k as [|k']; cbn [moved] in G; (split; [exact G|]); [exact Dp|]. rewrite openapi_id by auto. exact Dp.
  Qed.
End stays.

Lemma step_cache env n o s w s' w' :
  runGenerate env n o s w = (Ok tt, s', w') -> sv_cacheEnabled s' = sv_cacheEnabled s.
Proof.
  intros E. destruct (out_generate o) as [|x|x|d|u] eqn:O.
  - unfold runGenerate in E. rewrite O in E. discriminate.
  - destruct (openapi_step env n o x _ _ _ _ O E) as (d & c & names & _ & -> & _). reflexivity.
  - destruct (json_step env n o x _ _ _ _ O E) as (-> & _). reflexivity.
  - unfold runGenerate in E. rewrite O in E. apply quiet_of in E as (-> & _); [reflexivity|apply p_generateAzure; quiet_tac].
  - unfold runGenerate in E. rewrite O in E. unfold aoutcome in E. now injection E as _ <- <-.
Qed.
Lemma calls_cache P s w l s' w' : calls P s w l s' w' -> sv_cacheEnabled s' = sv_cacheEnabled s.
Proof. intros A. induction A as [| |l n s1 w1 env o s2 w2 A IH PE N E]; auto. apply step_cache in E. congruence. Qed.

(** A whole run after [k] others, split after output number [n]. *)
Lemma generation_stays (P : Env -> Prop) s w k s' w' n :
  sv_workDir s <> "" -> sv_cacheEnabled s = false -> n < List.length (sv_outputs s) ->
  (forall m o, nth_error (sv_outputs s) m = Some o -> one_file o) -> generations P s w (S k) s' w' ->
  exists l s2 w2,
    count n l = k /\ called_after P l n s w s2 w2 /\
    forall q c, kind_at q (w_fs w2) = Some (KFile c) ->
      (forall m o, n < m -> nth_error (sv_outputs s) m = Some o -> q <> file_of s w o k) ->
      kind_at q (w_fs w') = Some (KFile c).
Proof.
  intros W NC L F G. inversion G as [|? s1 w1 env ? ? G1 PE E]; subst. pose proof (generations_calls P s w k s1 w1 W G1) as A.
  destruct (calls_kept P s w _ s1 w1 W A) as (_ & _ & _ & _ & _ & I6 & _).
  unfold Generate in E. apply bind_ok in E as ([] & s3 & w3 & E3 & E). unfold log in E3. injection E3 as <- <-.
  unfold abind at 1, service in E. apply bind_ok in E as ([] & s4 & w4 & E4 & E).
  set (w1' := mkWorld _ _ _ _ _ _) in E4.
  pose proof (calls_files P s w _ s1 w1 w1' A eq_refl eq_refl) as A'.
  pose proof (runs_calls P env s w PE _ 0 _ _ _ _ _ W A' (fun i o I => I) E4) as A4.
  unfold cacheIfEnabled, abind at 1, service in E. rewrite (calls_cache _ _ _ _ _ _ A4), NC in E. injection E as <- <-.
  rewrite <- (firstn_skipn (S n) (sv_outputs s1)) in E4. apply runGenerates_app in E4 as (s2 & w2 & E2 & E4).
  assert (LN : List.length (firstn (S n) (sv_outputs s1)) = S n) by (apply firstn_length_le; lia).
  rewrite LN in E4. cbn [Nat.add] in E4.
  destruct (round_called P s w k s1 w1' env n s2 w2 W A' PE L E2) as (l & CL & AL).
  exists l, s2, w2. split; [exact CL|]. split; [exact AL|]. intros q c K D.
  { pose proof (runs_calls P env s w PE _ 0 _ _ _ _ _ W A' (fun i o I => nth_firstn _ (S n) i o I) E2) as A2. rewrite LN in A2.
    eapply (rest_stays P env PE s w W k q c F _ (S n) _ s2 w2 s4 w4 A2); [| | | |exact E4|exact K].
    + intros m M ML. rewrite count_app, count_seq. destruct (Nat.ltb_spec m (0 + S n)); [lia|]. rewrite andb_false_r, Nat.add_0_r.
      now apply count_rounds.
    + rewrite skipn_length. lia.
    + intros i o I.
      rewrite (runs_later env _ 0 _ _ _ _ (fun i o I => nth_firstn _ (S n) i o I) E2) by (rewrite LN; cbn; lia).
      rewrite <- I. clear. revert i. generalize (sv_outputs s1) as l. generalize (S n) as j. induction j as [|j IH]; intros l i; [reflexivity|].
      destruct l as [|a l]; [now destruct i|]. cbn [skipn Nat.add nth_error]. apply IH.
    + intros m o M. apply D. lia. }
Qed.
