(** What the operation of an analysed and cleaned route says. *)
From Coq Require Import List String Ascii Bool ZArith Arith Lia Permutation.
From Verif Require Import BaseStr BaseMap M_Types M_Collect M_Paths M_TypeTrav M_OpenAPI M_Parse M_Clean M_FS M_Service S_Collect S_Names S_OpenAPI S_Parse S_Paths S_Service S_Cache S_Files S_Whole.
From Verif Require Import P_Collect P_Paths P_Parse4 P_OpenAPI P_Schema P_Mono P_Whole Props_OpenAPI.
Import ListNotations.
Local Open Scope string_scope.

Lemma returns_in rt es : In rt (returns_of es) <-> In (EReturn rt) es.
Proof. unfold returns_of. rewrite in_flat_map. split; [intros (e & I & H); destruct e; cbn in H; try contradiction; destruct H as [<-|[]]; auto|intros I; exists (EReturn rt); cbn; auto]. Qed.
Lemma queries_in p es : In p (queries_of es) <-> In (EQuery p) es.
Proof. unfold queries_of. rewrite in_flat_map. split; [intros (e & I & H); destruct e; cbn in H; try contradiction; destruct H as [<-|[]]; auto|intros I; exists (EQuery p); cbn; auto]. Qed.
Lemma headers_in p es : In p (reqHeaders_of es) <-> In (EReqHeader p) es.
Proof. unfold reqHeaders_of. rewrite in_flat_map. split; [intros (e & I & H); destruct e; cbn in H; try contradiction; destruct H as [<-|[]]; auto|intros I; exists (EReqHeader p); cbn; auto]. Qed.

Lemma trim_trim doc : String.eqb (FormatDoc doc) "" = true -> TrimSpace (FormatDoc doc) = "".
Proof. intros E. apply String.eqb_eq in E. now rewrite E. Qed.

Lemma clean_entries main place l : map (entry_of place) (map (cleanParam main) l) = map (entry_of place) l.
Proof. rewrite map_map. apply map_ext. reflexivity. Qed.
Lemma clean_unbound main l : Forall unbound l -> Forall unbound (map (cleanParam main) l).
Proof. induction 1; constructor; auto. Qed.
Lemma spec_entries ps : map (entry_of "path") (map spec_param ps) = map (fun mn => (snd mn, "path", Ascii.eqb (fst mn) ":")) ps.
Proof. rewrite map_map. apply map_ext. reflexivity. Qed.

Lemma told o custom config routes components names0 d names main doc id es i file op :
  valid_orders o -> generated o custom config routes components names0 d names ->
  distinct_routes routes -> (forall r, In r routes -> gin_path (rt_path r)) ->
  let r := cleanRoute main (analysed doc id es (entry_route i file)) in
  In r routes -> S_OpenAPI.documents d r op -> tells op (gi_path i) id doc es.
Proof.
  intros V G DR GP r I D.
  assert (RT : rt_returns r = map (cleanReturn main) (AddReturnType [] (returns_of es))).
  { unfold r, analysed, comment_of, with_op. destruct id, (String.eqb (FormatDoc doc) ""); reflexivity. }
  destruct (extract_exact (gi_path i)) as (ps & SP & EP).
  assert (PP : rt_pathParams r = (map (cleanParam main) (map spec_param ps ++ paths_of es))%list).
  { unfold r, analysed, comment_of, with_op. rewrite <- EP. destruct id, (String.eqb (FormatDoc doc) ""); reflexivity. }
  assert (QP : rt_queryParams r = map (cleanParam main) (queries_of es)).
  { unfold r, analysed, comment_of, with_op. destruct id, (String.eqb (FormatDoc doc) ""); reflexivity. }
  assert (HP : rt_reqHeaders r = reqHeaders_of es).
  { unfold r, analysed, comment_of, with_op. destruct id, (String.eqb (FormatDoc doc) ""); reflexivity. }
  destruct (C23_parameters_documented _ _ _ _ _ _ _ _ _ _ V G DR GP I D) as (P1 & P2 & P3).
  unfold tells. repeat split.
  - destruct D as (_ & -> & _). unfold r, analysed, comment_of, with_op. destruct id, (String.eqb (FormatDoc doc) ""); reflexivity.
  - destruct D as (_ & _ & ->). unfold r, analysed, comment_of, with_op.
    destruct id, (String.eqb (FormatDoc doc) "") eqn:E; cbn; auto using trim_trim; symmetry; now apply trim_trim.
  - intros H. apply (C21_statuses_exact _ _ _ _ _ _ _ _ _ _ G DR GP I D) in H as (rt & H & ->). rewrite RT in H.
    apply in_map_iff in H as (rt' & <- & H). exists rt'. split; auto. apply returns_in.
    destruct (add_return_prefix (returns_of es) []) as (ext & X & Y). rewrite X in H. now apply Y.
  - intros (rt & H & ->). apply (C21_statuses_exact _ _ _ _ _ _ _ _ _ _ G DR GP I D). rewrite RT.
    apply returns_in, (add_return_present _ []) in H. apply in_map_iff in H as (rt' & E & H).
    exists (cleanReturn main rt'). split; [now apply in_map|]. unfold ret_key in E. cbn. congruence.
  - intros p H U. apply queries_in in H. assert (H' := in_map (cleanParam main) _ _ H). rewrite <- QP in H'. exact (P3 _ H' U).
  - intros p H U. apply headers_in in H. rewrite <- HP in H. exact (P2 _ H U).
  - exists ps. split; auto. split.
    + intros mn H. assert (H' : In (cleanParam main (spec_param mn)) (rt_pathParams r)).
      { rewrite PP. apply in_map, in_or_app. left. now apply in_map. }
      exact (P1 _ H' eq_refl).
    + intros (U1 & U2 & U3). rewrite U1, app_nil_r in PP.
      assert (X := C23_exact_partial _ _ _ _ _ _ _ _ _ _ V G DR GP I D). rewrite PP, QP, HP in X. unfold expected_entries in X.
      rewrite PP, QP, HP, !clean_entries, spec_entries in X. apply X; auto using clean_unbound.
      apply clean_unbound. apply Forall_forall. intros p H. apply in_map_iff in H as (mn & <- & _). reflexivity.
Qed.

(** The analysis of a route is that of its handler, whatever the fuel. *)
Lemma analysis_is prog r f g id strict ctx es regs last fuel c r' c' :
  handler_of prog r f g id -> pr_customs prog = [] -> fn_ctx (pr_funcs prog g) f = Ok ctx -> ctx <> "" ->
  S_Parse.documents (pr_funcs prog) strict ctx f (fn_body (pr_funcs prog g)) es regs last ->
  parseRoute fuel prog r c = Ok (r', c') -> r' = analysed (fn_doc (pr_funcs prog g)) id es r.
Proof.
  intros H1 H2 H3 H4 H5 E. destruct (parseRoute_sound prog r f g id strict ctx es regs last H1 H2 H3 H4 H5) as (N & S).
  destruct (parseRoute_upto prog fuel (max fuel N) (Nat.le_max_l _ _) r c) as [X|X]; [congruence|].
  rewrite E, S in X by apply Nat.le_max_r. congruence.
Qed.
