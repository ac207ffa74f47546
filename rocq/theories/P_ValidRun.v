(** Proofs about the validity of the document of a run. *)
From Coq Require Import List String Ascii Bool ZArith Arith Lia.
From Verif Require Import BaseStr BaseMap M_Types M_Collect M_Paths M_TypeTrav M_OpenAPI M_Parse M_Clean M_FS M_Service M_Json S_Collect S_Names S_OpenAPI S_Parse S_Paths S_Service S_Cache S_Files S_Json S_Valid S_Whole S_ValidRun.
From Verif Require Import P_Collect P_FS P_Path P_Frame P_Mono P_Temp P_Parse P_Parse3 P_Parse4 P_Paths P_Whole P_Told P_Comps Props_Names Props_OpenAPI Props_Parse Props_Files Props_Whole Props_Valid.
Import ListNotations.
Local Open Scope string_scope.

Section Cleaned.
  Variable main : string.

  Lemma substitute_is pkg name t : substituteFor pkg name = Some t -> t = "int" \/ t = "string".
  Proof. unfold substituteFor, substituteTypes. cbn [mlookup]. destruct (String.eqb _ _); [intros [= <-]; auto|]. destruct (String.eqb _ _); [intros [= <-]; auto|discriminate]. Qed.

  Lemma clean_complete f : complete (f_type f) -> complete (f_type (cleanField main f)).
  Proof.
    destruct f as [a1 a2 a3 a4 a5 a6 a7 a8 a9 a10 a11 a12 a13 a14 a15 a16]. cbn [cleanField f_type]. destruct (substituteFor _ _) eqn:E; auto. cbn [f_type].
    apply substitute_is in E as [->| ->]; discriminate.
  Qed.
  Lemma clean_type f : sound_type f -> sound_type (cleanField main f).
  Proof.
    destruct f as [a1 a2 a3 a4 a5 a6 a7 a8 a9 a10 a11 a12 a13 a14 a15 a16]. cbn [cleanField]. destruct (substituteFor _ _) eqn:E; intros [A B].
    - apply substitute_is in E as [->| ->]; split; discriminate.
    - split; [exact A|exact B].
  Qed.
  Lemma clean_named l : named_params l -> named_params (map (cleanParam main) l).
  Proof.
    intros (A & B). split.
    - apply Forall_map. eapply Forall_impl; [|exact A]. intros p (X & Y & Z). cbn. auto using clean_complete.
    - now rewrite map_map.
  Qed.
  Lemma clean_path path : main <> "" -> map (cleanParam main) (ExtractParamsFromPath path) = ExtractParamsFromPath path.
  Proof.
    intros NE. destruct (extract_exact path) as (ps & _ & ->). rewrite map_map. apply map_ext. intros (m & n). unfold cleanParam. cbn.
    unfold cleanPackage. destruct (String.eqb_spec "" main); [congruence|]. reflexivity.
  Qed.
End Cleaned.

Lemma added_returns l : l <> [] -> AddReturnType [] l <> [] /\ incl (AddReturnType [] l) l.
Proof.
  intros N. split.
  - destruct l as [|a l]; [congruence|]. change (AddReturnType [] (a :: l)) with (AddReturnType [a] l).
    destruct (add_return_prefix l [a]) as (ext & -> & _). discriminate.
  - destruct (add_return_prefix l []) as (ext & -> & I). exact I.
Qed.

Lemma analysed_parts doc id es r :
  rt_path (analysed doc id es r) = rt_path r /\ rt_method (analysed doc id es r) = rt_method r /\
  rt_pathParams (analysed doc id es r) = (ExtractParamsFromPath (rt_path r) ++ paths_of es)%list /\
  rt_queryParams (analysed doc id es r) = (rt_queryParams r ++ queries_of es)%list /\
  rt_body (analysed doc id es r) = (rt_body r ++ bodies_of es)%list /\
  rt_returns (analysed doc id es r) = AddReturnType (rt_returns r) (returns_of es) /\
  rt_reqHeaders (analysed doc id es r) = (rt_reqHeaders r ++ reqHeaders_of es)%list /\
  rt_respHeaders (analysed doc id es r) = (rt_respHeaders r ++ respHeaders_of es)%list /\
  rt_operationId (analysed doc id es r) = match id with Some x => x | None => rt_operationId r end.
Proof. unfold analysed, comment_of, with_op. destruct id, (String.eqb (FormatDoc doc) ""); repeat split. Qed.

Lemma analysed_sound main doc id es i file : main <> "" -> plain_path (gi_path i) -> sound_events es ->
  sound_route (cleanRoute main (analysed doc id es (entry_route i file))).
Proof.
  intros NE (GP & SL & ST & ND) SE. destruct (analysed_parts doc id es (entry_route i file)) as (A & B & C & D & E & F & G & H & _).
  set (r := analysed doc id es (entry_route i file)) in *. cbn [entry_route rt_path rt_queryParams rt_body rt_returns rt_reqHeaders rt_respHeaders app] in *.
  destruct SE as [S1 S2 S3 S4 S5 S6 S7]. rewrite S1, app_nil_r in C.
  assert (P : rt_pathParams (cleanRoute main r) = ExtractParamsFromPath (rt_path (cleanRoute main r))).
  { cbn [cleanRoute rt_pathParams rt_path]. rewrite C, A. now apply clean_path. }
  assert (N : NoDup (map p_name (rt_pathParams (cleanRoute main r)))).
  { rewrite P. cbn [cleanRoute rt_path]. rewrite A. destruct (extract_exact (gi_path i)) as (ps & Hp & ->).
    replace (map p_name (map spec_param ps)) with (map snd ps) by (rewrite map_map; apply map_ext; intros []; reflexivity). exact (ND ps Hp). }
  destruct (C76_paths_partial (cleanRoute main r)) as (P1 & P2 & P3); auto; try (cbn [cleanRoute rt_path]; rewrite A; auto).
  split; auto; cbn [cleanRoute rt_reqHeaders rt_queryParams rt_respHeaders rt_body rt_returns].
  - now rewrite G.
  - rewrite D. destruct S3 as [S3|(p & -> & S3 & S8)]; [left; now apply clean_named|]. right. exists (cleanParam main p). cbn. auto using clean_type.
  - now rewrite H.
  - rewrite E. apply Forall_map. eapply Forall_impl; [|exact S5]. intros b. apply clean_type.
  - rewrite F. apply Forall_map. apply Forall_forall. intros t I. apply (proj2 (added_returns _ S7)) in I.
    rewrite Forall_forall in S6. destruct (S6 _ I). split; auto. now apply clean_type.
  - rewrite F. intros X. apply map_eq_nil in X. now apply (added_returns _ S7).
Qed.

Lemma occurs_same c n : P_Comps.occurs c n -> S_Parse.occurs c n.
Proof. induction 1; [constructor|econstructor; eauto]. Qed.

Lemma added_in comps x c : In c (addComponent comps x) -> In c comps \/ c = ParseResultToField x /\ f_package c <> "".
Proof.
  unfold addComponent. destruct (String.eqb_spec (f_package (ParseResultToField x)) ""); auto. unfold AddComponent. cbn [fold_left]. unfold addComponent1.
  destruct comps as [|a l].
  - intros [<-|[]]. auto.
  - destruct (existsb _ _); auto. rewrite in_app_iff. intros [I|[<-|[]]]; auto.
Qed.

(** Everything registered is a component of the program, each name of each package once. *)
Lemma components_found fuel prog rs routes comps : pr_customs prog = [] -> NoDup (map P_Parse3.rkey rs) ->
  GinParseRoutes fuel prog rs [] = Ok (routes, comps, None) ->
  NoDup (map comp_key comps) /\ forall c, In c comps -> component_of prog c.
Proof.
  intros CU ND E. unfold GinParseRoutes in E.
  pose (fine := fun x => exists g k f name a, S_Parse.occurs k (fn_body (pr_funcs prog g)) /\ c_obj k f = OFunc name (Some ginContext) /\
    In a (c_args k) /\ In x (fst (a_result a f))).
  refine (proj1 (parse_from_comps (fun comps => NoDup (map comp_key comps) /\ forall c, In c comps -> component_of prog c) fine _ fuel prog CU _ rs [] [] routes comps ND _ E)).
  - intros c x (A & B) (g & k & f & name & a & H1 & H2 & H3 & H4). split.
    + unfold addComponent. destruct (String.eqb _ ""); auto. now apply add_component_nodup.
    + intros c0 I. apply added_in in I as [I|(-> & I)]; auto. exists g, k, f, name, a, x. auto 10.
  - intros g k O f name a x H1 H2 H3. exists g, k, f, name, a. auto using occurs_same.
  - split; [constructor|intros c []].
Qed.

Lemma cleaned_parts temp c : f_name (cleanField temp c) = f_name c /\ f_package (cleanField temp c) = cleanPackage temp (f_package c).
Proof. destruct c as [a1 a2 a3 a4 a5 a6 a7 a8 a9 a10 a11 a12 a13 a14 a15 a16]. cbn [cleanField]. destruct (substituteFor _ _); split; reflexivity. Qed.

Lemma sound_found custom temp prog fuel rs routes comps : pr_customs prog = [] -> NoDup (map P_Parse3.rkey rs) ->
  GinParseRoutes fuel prog rs [] = Ok (routes, comps, None) -> sound_types custom temp prog -> sound_components custom (cleanComponents temp comps).
Proof.
  intros CU ND E [S1 S2 S3 S4 S5 S6]. destruct (components_found _ _ _ _ _ CU ND E) as (N & H).
  assert (X : forall c, In c (cleanComponents temp comps) -> exists c0, c = cleanField temp c0 /\ component_of prog c0).
  { intros c I. apply in_map_iff in I as (c0 & <- & I). eauto. }
  split.
  - intros c I. apply X in I as (c0 & -> & I). auto.
  - split.
    + intros c I. apply X in I as (c0 & -> & I). rewrite (proj1 (cleaned_parts temp c0)). auto.
    + intros c1 c2 t I1 I2 T. apply X in I1 as (d1 & -> & I1). apply X in I2 as (d2 & -> & I2). auto.
  - clear X E. unfold cleanComponents. induction comps as [|c l IH]; cbn; [constructor|]. cbn in N. inversion N as [|? ? N1 N2]; subst. constructor.
    + intros I. apply in_map_iff in I as (c' & K & I). apply in_map_iff in I as (c0 & <- & I). apply N1. apply in_map_iff. exists c0. split; auto.
      destruct (cleaned_parts temp c) as (A & B), (cleaned_parts temp c0) as (A' & B'). unfold comp_key in *. rewrite A, B, A', B' in K. injection K as K1 K2.
      f_equal; auto. assert (M := S1 c (H c (or_introl eq_refl))). assert (M' := S1 c0 (H c0 (or_intror I))). unfold cleanPackage in K2.
      destruct (String.eqb_spec (f_package c0) temp), (String.eqb_spec (f_package c) temp); congruence.
    + apply IH; auto. intros c0 I. apply H. now right.
  - intros c I. apply X in I as (c0 & -> & I). auto.
  - apply Forall_forall. intros c I. apply X in I as (c0 & -> & I). auto.
Qed.
