(** What holds of every schema of a document, given that it holds of the smallest ones. *)
From Coq Require Import List String Bool ZArith Permutation Sorted.
From Verif Require Import BaseStr BaseMap M_Types M_Paths M_Tags M_OpenAPI S_Names P_FS P_Schema P_OpenAPI M_Json S_Json P_JsonDoc.
Import ListNotations.
Local Open Scope string_scope.

(** A field, and the fields its struct fields are made of. *)
Inductive inside (g : Field) : Field -> Prop :=
| inside_self : inside g g
| inside_field f k h : In (k, h) (f_structFields f) -> inside g h -> inside g f.

Section Built.
  Context (tm : string -> string -> option TypeFormat) (o : Orders) (names : list (string * string)) (components : list Field).
  Hypothesis Ho : valid_orders o.
  Context (Q : Schema -> Prop) (fine : string -> Prop) (long : Z -> Prop).
  Hypothesis Qempty : Q emptySchema.
  Hypothesis Qref : forall r, Q (refSchema r).
  Hypothesis Qpre : forall x, fine x -> Q (mapPredefinedTypeFormat x).
  Hypothesis Qenum : forall x e, fine x -> Q (set_enum e (mapPredefinedTypeFormat x)).
  Hypothesis Qitem : forall x, fine x -> Q (typeSchema (s_type (mapPredefinedTypeFormat x)) "").
  Hypothesis Qarr : forall i n, Q i -> long n -> Q (arraySchema i n).
  Hypothesis long0 : long 0.
  Hypothesis Qmap : forall i, Q i -> Q (mapSchema i).
  Hypothesis Qobj : forall props, tidy_map Q props -> Q (objectSchema props).
  Hypothesis Qall : forall l, Forall Q l -> Q (mkSchema "" "object" "" 0 [] l None [] None "").
  Hypothesis Qprops : forall props, tidy_map Q props -> Q (mkSchema "" "" "" 0 [] [] None props None "").
  Hypothesis Qdesc : forall d s, Q s -> Q (set_desc d s).
  Hypothesis Qsub : forall s, Q s -> tidy_map Q (s_props s).

  (** What a field must be like, without its struct fields. *)
  Record fine_node (f : Field) : Prop := {
    fn_custom : tm (f_name f) (f_package f) <> None -> Q (mapTypeFormat tm (f_name f) (f_package f));
    fn_slice : f_type f = "slice" -> fine (f_sliceType f);
    fn_array : f_type f = "array" -> fine (f_arrayType f) /\ long (f_arrayLength f);
    fn_map : f_type f = "map" -> fine (f_mapValueType f);
    fn_type : f_type f <> "slice" -> fine (f_type f) }.
  Definition fine_field (f : Field) : Prop := forall g, inside g f -> fine_node g.

  Lemma fields_perm site (A : Type) (l : list A) : Permutation l (o_fields o site A l).
  Proof. apply Ho. Qed.

  Lemma element_built t x p : fine x -> Q (elementSchema names t x p).
  Proof.
    intros F. unfold elementSchema. destruct (_ && _); [|now apply Qpre].
    destruct (makeComponentRef names t x p); [apply Qref|now apply Qpre].
  Qed.

  Definition orderly {A} (P : A -> Prop) (l : list (string * A)) : Prop := msorted l /\ Forall (fun ka => P (snd ka)) l.
  Lemma orderly_nil {A} (P : A -> Prop) : orderly P [].
  Proof. split; constructor. Qed.
  Lemma orderly_insert {A} (P : A -> Prop) k v l : P v -> orderly P l -> orderly P (minsert k v l).
  Proof. intros H (S & F). split; [now apply minsert_sorted|now apply Forall_minsert]. Qed.
  Lemma orderly_tidy l : orderly Q l -> tidy_map Q l.
  Proof. intros (S & F). split; [now apply msorted_NoDup|exact F]. Qed.
  Lemma orderly_lookup {A} (P : A -> Prop) k v l : orderly P l -> mlookup k l = Some v -> P v.
  Proof. intros (_ & F) E. apply mlookup_In in E. rewrite Forall_forall in F. exact (F _ E). Qed.

  Lemma struct_built t l : forall props emb props' emb', structLoop names t l props emb = Some (props', emb') ->
    Forall (fun e => forall s, snd e = Some s -> Q s) l -> orderly Q props -> Forall Q emb -> orderly Q props' /\ Forall Q emb'.
  Proof.
    induction l as [|(f & s) l IH]; intros props emb props' emb' E F P M; cbn [structLoop] in E; [injection E as <- <-; auto|].
    inversion_clear F as [|? ? Fs Fl]. cbn in Fs. destruct (f_isEmbedded f).
    - destruct (makeComponentRef names t (f_type f) (f_package f)); eapply IH; eauto. apply Forall_app. auto.
    - destruct (fieldBindingOf t f) as [b|]; [|discriminate]. destruct (negb (bt_notShown b)); [|eapply IH; eauto].
      destruct s as [s|]; eapply IH; eauto. apply orderly_insert; auto.
  Qed.
  Lemma component_built t c : forall site s, fine_field c -> componentToSchema tm o names t site c = Some s -> Q s.
  Proof.
    induction c as [c IH] using Field_ind'. intros site s F E. rewrite component_to_schema_eq in E.
    assert (N : fine_node c) by (apply F; constructor).
    destruct (tm (f_name c) (f_package c)) eqn:Et; [injection E as <-; apply (fn_custom c N); congruence|].
    destruct (String.eqb_spec (f_type c) "struct") as [_|_].
    { destruct (structLoop names t _ [] []) as [(props & emb)|] eqn:El; [|discriminate].
      apply struct_built in El as (P & M); [|  |apply orderly_nil|constructor].
      - apply orderly_tidy in P. destruct emb as [|x emb]; [destruct props; injection E as <-; now apply Qobj|].
        destruct props as [|y props]; injection E as <-; apply Qall; auto.
        inversion_clear M. constructor; auto. apply Forall_app. auto.
      - eapply Permutation_Forall; [apply fields_perm|]. unfold field_entries. apply Forall_map. rewrite Forall_forall in *.
        intros (k & g) I s' E'. apply (IH _ I) in E'; auto. intros h Hh. apply F. econstructor; eauto. }
    destruct (String.eqb_spec (f_type c) "slice") as [Ts|Ns].
    { injection E as <-. apply Qarr; auto. apply element_built, (fn_slice c N Ts). }
    destruct (String.eqb_spec (f_type c) "array") as [Ta|_].
    { injection E as <-. destruct (fn_array c N Ta). apply Qarr; auto. now apply element_built. }
    destruct (String.eqb_spec (f_type c) "map") as [Tm|_].
    { injection E as <-. apply Qmap. apply element_built, (fn_map c N Tm). }
    cbn zeta in E. assert (Ft := fn_type c N Ns).
    destruct (_ && _); [destruct (makeComponentRef names t (f_type c) (f_package c)); injection E as <-; auto|injection E as <-; auto].
  Qed.

  (** The type of a body or an answer. *)
  Record fine_top (f : Field) : Prop := {
    ft_slice : f_type f = "slice" -> fine (f_sliceType f);
    ft_map : f_type f = "map" -> fine (f_mapValueType f);
    ft_type : f_type f <> "slice" -> fine (f_type f) }.
  Lemma field_built t f s : fine_top f -> mapFieldToSchema names t f = Some s -> Q s.
  Proof.
    intros N E. unfold mapFieldToSchema in E. destruct (negb (IsAcceptedType (f_type f))).
    { destruct (makeComponentRef names t (f_type f) (f_package f)); [injection E as <-; apply Qref|discriminate]. }
    cbn zeta in E. destruct (String.eqb_spec (f_type f) "slice") as [Ts|Ns].
    { injection E as <-. rewrite Ts. change (set_items ?x (mapPredefinedTypeFormat "slice")) with (arraySchema x 0). apply Qarr; auto.
      assert (Fs := ft_slice f N Ts). destruct (negb _); auto. destruct (makeComponentRef names t (f_sliceType f) (f_package f)); auto. }
    destruct (String.eqb_spec (f_type f) "map") as [Tm|_].
    { injection E as <-. rewrite Tm. change (set_addl ?x (mapPredefinedTypeFormat "map")) with (mapSchema x). apply Qmap.
      assert (Fs := ft_map f N Tm). destruct (negb _); auto. destruct (makeComponentRef names t (f_mapValueType f) (f_package f)); auto. }
    injection E as <-. apply Qpre, (ft_type f N Ns).
  Qed.
  Definition fine_param (p : Param) : Prop := if p_isBound p then fine_top (p_field p) else fine (f_type (p_field p)).
  Lemma param_built t p s : fine_param p -> mapParamToSchema names t p = Some s -> Q s.
  Proof.
    unfold fine_param, mapParamToSchema. intros N E. destruct (p_isBound p); [eapply field_built; eauto|]. cbn zeta in E.
    destruct (p_isArray p).
    { injection E as <-. apply Qarr; auto. destruct (negb _); auto.
      destruct (makeComponentRef names t (f_type (p_field p)) (f_package (p_field p))); auto. }
    destruct (p_isMap p); [|injection E as <-; auto].
    injection E as <-. apply Qmap. destruct (negb _); auto. destruct (makeComponentRef names t (f_type (p_field p)) (f_package (p_field p))); auto.
  Qed.

  Record fine_route (r : Route) : Prop := {
    fr_path : Forall fine_param (rt_pathParams r);
    fr_headers : Forall fine_param (rt_reqHeaders r);
    fr_query : Forall fine_param (rt_queryParams r);
    fr_answered : Forall fine_param (rt_respHeaders r);
    fr_body : Forall (fun b => fine_top (b_field b)) (rt_body r);
    fr_returns : Forall (fun rt => fine_top (r_field rt)) (rt_returns r) }.
  Hypothesis Hcomp : Forall fine_field components.

  Lemma simple_built t place l : Forall fine_param l -> Forall (fun p => Q (pa_schema p)) (simpleParams names t place l).
  Proof.
    intros F. unfold simpleParams. apply Forall_flat_map. eapply Forall_impl; [|exact F]. intros p N.
    destruct (mapParamToSchema names t p) eqn:E; constructor; auto. cbn. eapply param_built; eauto.
  Qed.
  Lemma query_built site p : fine_param p -> Forall (fun p => Q (pa_schema p)) (queryParam tm o names components site p).
  Proof.
    intros N. unfold queryParam. destruct (mapParamToSchema names FormBindingTag p) as [s|] eqn:E; [|constructor].
    destruct (p_isBound p) eqn:Eb.
    - destruct (findComponentByPackageAndType components _ _) as [c|] eqn:Ef; [|constructor].
      destruct (componentToSchema tm o names FormBindingTag site c) as [cs|] eqn:Ec; [|constructor].
      apply Forall_map. apply component_built in Ec; [|apply find_some in Ef as (I & _); rewrite Forall_forall in Hcomp; auto].
      apply Qsub in Ec as (_ & F). assert (P : Permutation (s_props cs) (o_props o site (s_props cs))) by apply Ho.
      eapply Permutation_Forall; [exact P|]. eapply Forall_impl; [|exact F]. intros np H. now destruct (getQueryParamStyle (snd np)).
    - destruct (getQueryParamStyle s). constructor; [|constructor]. cbn. eapply param_built; eauto.
  Qed.
  Lemma queries_built site l : forall i, Forall fine_param l -> Forall (fun p => Q (pa_schema p)) (queryParams tm o names components site i l).
  Proof.
    induction l as [|p l IH]; intros i F; cbn; [constructor|]. inversion_clear F. apply Forall_app. split; auto. now apply query_built.
  Qed.
  Lemma body_built l : forall rb, Forall (fun b => fine_top (b_field b)) l -> (forall x, rb = Some x -> orderly Q x) ->
    forall x, fold_left (addBody names) l rb = Some x -> orderly Q x.
  Proof.
    induction l as [|b l IH]; intros rb F R x E; cbn in E; [auto|]. inversion_clear F as [|? ? Fb Fl]. eapply IH; [exact Fl| |exact E].
    intros y. unfold addBody. destruct (mapFieldToSchema names _ (b_field b)) as [s|] eqn:Es; [|auto]. intros [= <-].
    apply orderly_insert.
    - apply field_built in Es; auto. destruct (negb _); auto. apply Qobj. split; cbn; repeat constructor; auto.
    - destruct rb as [z|]; [now apply R|apply orderly_nil].
  Qed.
  Lemma headers_built l : forall hs, Forall fine_param l -> orderly (fun h => Q (h_schema h)) hs ->
    orderly (fun h => Q (h_schema h)) (fold_left (addHeader names) l hs).
  Proof.
    induction l as [|p l IH]; intros hs F H; cbn; [auto|]. inversion_clear F as [|? ? Fp Fl]. apply IH; auto. unfold addHeader.
    destruct (mapParamToSchema names HeaderBindingTag p) eqn:E; auto. apply orderly_insert; auto. cbn. eapply param_built; eauto.
  Qed.
  Definition built_response (r : Response) : Prop := orderly (fun h => Q (h_schema h)) (resp_headers r) /\ orderly Q (resp_content r).
  Lemma responses_built hs l : orderly (fun h => Q (h_schema h)) hs -> forall rs, Forall (fun rt => fine_top (r_field rt)) l -> orderly built_response rs ->
    orderly built_response (fold_left (addResponse names hs) l rs).
  Proof.
    intros Hh. induction l as [|rt l IH]; intros rs F R; cbn; [auto|]. inversion_clear F as [|? ? Fr Fl]. apply IH; auto. unfold addResponse. cbn zeta.
    set (media := match mapFieldToSchema names _ (r_field rt) with Some s => s | None => emptySchema end).
    assert (M : Q media). { unfold media. destruct (mapFieldToSchema names _ (r_field rt)) eqn:E; auto. eapply field_built; eauto. }
    set (resp := match mlookup (itoa (r_status rt)) rs with Some r => r | None => mkResponse hs [] end).
    assert (B : built_response resp).
    { unfold resp. destruct (mlookup (itoa (r_status rt)) rs) eqn:E; [eapply orderly_lookup; eauto|]. split; auto. apply orderly_nil. }
    apply orderly_insert; auto. destruct (negb _); auto. destruct B. split; auto. now apply orderly_insert.
  Qed.
  Lemma operation_built site r : fine_route r -> tidy_operation Q (operationOf tm o names components site r).
  Proof.
    intros [F1 F2 F3 F4 F5 F6]. unfold operationOf, tidy_operation. cbn [op_parameters op_requestBody op_responses]. split; [|split].
    - eapply Permutation_Forall; [apply Ho|]. rewrite !Forall_app. auto using simple_built, queries_built.
    - intros x E. apply orderly_tidy. eapply body_built; eauto. discriminate.
    - destruct (responses_built (fold_left (addHeader names) (rt_respHeaders r) []) (rt_returns r)) with (rs := @nil (string * Response)) as (S & F);
        auto using orderly_nil, headers_built.
      split; [now apply msorted_NoDup|]. eapply Forall_impl; [|exact F]. intros kr ((S1 & H1) & C). split; [|now apply orderly_tidy].
      split; auto. now apply msorted_NoDup.
  Qed.
  Lemma method_built m op p : tidy_operation Q op -> tidy_path Q p -> tidy_path Q (setMethod m op p).
  Proof.
    unfold tidy_path, operations. intros A B. destruct p as [a b c d e f g h]. cbn [pi_get pi_put pi_post pi_delete pi_options pi_head pi_patch pi_trace flat_map] in *.
    rewrite !Forall_app in B. destruct B as (B1 & B2 & B3 & B4 & B5 & B6 & B7 & B8 & _).
    unfold setMethod. repeat (match goal with |- context [if ?b then _ else _] => destruct b end);
      cbn [pi_get pi_put pi_post pi_delete pi_options pi_head pi_patch pi_trace flat_map]; rewrite !Forall_app; repeat split; auto.
  Qed.
  Lemma paths_built l : forall i paths, Forall fine_route l -> orderly (tidy_path Q) paths -> orderly (tidy_path Q) (addPaths tm o names components i l paths).
  Proof.
    induction l as [|r l IH]; intros i paths F P; cbn [addPaths]; [auto|]. inversion_clear F as [|? ? Fr Fl]. apply IH; auto.
    unfold addPath. cbn zeta. apply orderly_insert; auto. apply method_built; [now apply operation_built|].
    destruct (mlookup (openapi_path (rt_path r)) paths) eqn:E; [eapply orderly_lookup; eauto|constructor].
  Qed.
  Lemma schemas_built : orderly Q (addSchemas tm o names components []).
  Proof.
    unfold addSchemas. assert (G : forall l acc, Forall fine_field l -> orderly Q acc ->
      orderly Q (fold_left (fun acc c => fold_left (fun acc' bt => addSchema tm o names acc' c bt) BindingTags acc) l acc)); [|apply G; auto using orderly_nil].
    induction l as [|c l IH]; intros acc F A; cbn [fold_left]; [auto|]. inversion_clear F as [|? ? Fc Fl]. apply IH; auto.
    clear IH. revert acc A. generalize BindingTags. induction l0 as [|bt ts IH]; intros acc A; cbn [fold_left]; [auto|]. apply IH.
    unfold addSchema. destruct (componentToSchema tm o names bt _ c) as [s|] eqn:E; [|auto]. cbn zeta.
    destruct (makeComponentRefName names bt (f_name c) (f_package c)); auto. apply orderly_insert; auto.
    apply component_built in E; auto. destruct (negb _); auto.
  Qed.
End Built.

Lemma document_built o custom config routes components names0 d c' names (Q : Schema -> Prop) (fine : string -> Prop) (long : Z -> Prop) :
  valid_orders o -> buildDocument o custom config routes components names0 = Ok (d, c', names) ->
  Q emptySchema -> (forall r, Q (refSchema r)) -> (forall x, fine x -> Q (mapPredefinedTypeFormat x)) ->
  (forall x e, fine x -> Q (set_enum e (mapPredefinedTypeFormat x))) -> (forall x, fine x -> Q (typeSchema (s_type (mapPredefinedTypeFormat x)) "")) ->
  (forall i n, Q i -> long n -> Q (arraySchema i n)) -> long 0%Z -> (forall i, Q i -> Q (mapSchema i)) ->
  (forall props, tidy_map Q props -> Q (objectSchema props)) ->
  (forall l, Forall Q l -> Q (mkSchema "" "object" "" 0 [] l None [] None "")) ->
  (forall props, tidy_map Q props -> Q (mkSchema "" "" "" 0 [] [] None props None "")) ->
  (forall d s, Q s -> Q (set_desc d s)) -> (forall s, Q s -> tidy_map Q (s_props s)) ->
  Forall (fine_field (typeMapping custom) Q fine long) components -> Forall (fine_route fine) routes ->
  tidy_document Q d.
Proof.
  intros Ho E Q1 Q2 Q3 Q4 Q5 Q6 Q7 Q8 Q9 Q10 Q11 Q12 Q13 Hc Hr. unfold buildDocument in E. destruct config as [c|]; [|discriminate].
  destruct (makeCollisionSafeNames o components names0) as [ns| | |] eqn:En; try discriminate. cbn [bind] in E. injection E as <- _ <-.
  unfold tidy_document. cbn [d_paths d_schemas].
  destruct (paths_built (typeMapping custom) o ns components Ho Q fine long Q1 Q2 Q3 Q4 Q5 Q6 Q7 Q8 Q9 Q10 Q11 Q13 Hc routes 0 [] Hr (orderly_nil _)) as (S & F).
  split; [now apply msorted_NoDup|]. split; [exact F|]. apply orderly_tidy.
  apply (schemas_built (typeMapping custom) o ns components Ho Q fine long); auto.
Qed.

(** Schemas without a property twice, at any depth. *)
Inductive well_keyed : Schema -> Prop :=
| well_keyed_intro ref t f ml enum allOf items props addl desc :
    Forall well_keyed allOf -> (forall i, items = Some i -> well_keyed i) -> NoDup (map fst props) -> Forall (fun ks => well_keyed (snd ks)) props ->
    (forall a, addl = Some a -> well_keyed a) -> well_keyed (mkSchema ref t f ml enum allOf items props addl desc).
Lemma well_keyed_neat float s : well_keyed s -> neat float s.
Proof.
  induction s as [ref t f ml enum allOf items props addl desc IA II IP IAd] using Schema_ind'. intros K. inversion K as [? ? ? ? ? ? ? ? ? ? A I N P Ad]; subst.
  apply neat_schema.
  - rewrite Forall_forall in *. auto.
  - auto.
  - split; auto. rewrite Forall_forall in *. auto.
  - auto.
Qed.
Lemma tidy_impl (P Q : Schema -> Prop) d : (forall s, P s -> Q s) -> tidy_document P d -> tidy_document Q d.
Proof.
  intros I (N & F & (M & G)). assert (T : forall l, tidy_map P l -> tidy_map Q l).
  { intros l (A & B). split; auto. eapply Forall_impl; [|exact B]. auto. }
  split; auto. split; [|now apply T].
  eapply Forall_impl; [|exact F]. intros kp. apply Forall_impl. intros op (A & B & C & D). split; [|split; [|split; auto]].
  - eapply Forall_impl; [|exact A]. auto.
  - eauto.
  - eapply Forall_impl; [|exact D]. intros kr ((H1 & H2) & H3). split; auto. split; auto. eapply Forall_impl; [|exact H2]. auto.
Qed.
(** The JSON value of a generated document has no object with a name twice. *)
Lemma built_keyed o custom config routes components names0 d c' names :
  valid_orders o -> buildDocument o custom config routes components names0 = Ok (d, c', names) -> tidy_document well_keyed d.
Proof.
  intros Ho E.
  assert (P : forall ref t f ml enum desc, well_keyed (mkSchema ref t f ml enum [] None [] None desc)) by (intros; constructor; try constructor; discriminate).
  assert (Pre : forall x e, well_keyed (set_enum e (mapPredefinedTypeFormat x))).
  { intros. unfold mapPredefinedTypeFormat. destruct (mlookup _ _); [destruct (String.eqb _ _)|]; apply P. }
  eapply document_built with (fine := fun _ => True) (long := fun _ => True); eauto; intros; try (apply P).
  - unfold mapPredefinedTypeFormat. destruct (mlookup _ _); [destruct (String.eqb _ _)|]; apply P.
  - constructor; try constructor; try discriminate. intros ? [= <-]; auto.
  - constructor; try constructor; try discriminate. intros ? [= <-]; auto.
  - destruct H. constructor; auto; discriminate.
  - constructor; auto; try constructor; discriminate.
  - destruct H. constructor; auto; discriminate.
  - inversion H; subst. constructor; auto.
  - inversion H; subst. split; auto.
  - apply Forall_forall. intros c _ g _. split; auto. intros _. unfold mapTypeFormat. destruct (typeMapping _ _ _); [destruct (String.eqb _ _)|]; apply P.
  - apply Forall_forall. intros r _. assert (T : forall f, fine_top (fun _ => True) f) by (intros; split; auto).
    assert (Fp : forall l, Forall (fine_param (fun _ => True)) l) by (intros; apply Forall_forall; intros p _; unfold fine_param; destruct (p_isBound p); auto).
    split; auto; apply Forall_forall; auto.
Qed.
Lemma built_unique float o custom config routes components names0 d c' names :
  valid_orders o -> buildDocument o custom config routes components names0 = Ok (d, c', names) -> unique_names (document_json float d).
Proof.
  intros Ho E. apply document_unique. eapply tidy_impl; [apply well_keyed_neat|]. eapply built_keyed; eauto.
Qed.
