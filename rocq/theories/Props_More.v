(** More on C11, C21, C23, C29, C53 and C54; C60: the shape of values; C61: optional and required. *)
From Coq Require Import List String Ascii Bool ZArith Arith Lia Permutation Sorted.
From Verif Require Import BaseStr BaseMap M_Types M_Paths S_Paths P_Paths M_Tags S_Tags P_Tags Props_Tags S_Collect
  M_OpenAPI S_Names P_Names S_OpenAPI P_OpenAPI P_Schema Props_OpenAPI M_TypeTrav S_TypeTrav P_TypeTrav P_Fields
  Props_TypeTrav M_Value S_More P_More P_Shape.
Import ListNotations.
Local Open Scope string_scope.

(** C11: whatever text is written into a tag with Go's quoting is read back. *)
Theorem C11_quoted_value : forall n k v rest, k <> "" -> all_key k ->
  Lookup (tag_pair n k (quote_body v) ++ rest) k = Some v.
Proof.
  intros n k v rest Hk Ha. apply lookup_spec. apply th_here; auto; [apply quoted_quote|apply unquote_quote].
Qed.
Print Assumptions C11_quoted_value.
Example C11_quoted_nontrivial :
  quote_body (String newline (str1 dquote)) = "\n\""" /\ all_key "json".
Proof. split; [reflexivity|repeat constructor]. Qed.

(** C61, full claim for options: a binding is optional iff omitempty is among the options of the tag.
    False: only the first option is looked at. *)
Theorem C61_optional_refuted : exists field tag v b,
  tag_has tag "json" v /\ has_option v "omitempty" /\ In ("json", b) (fst (ParseStructTag field tag)) /\
  bt_returnOptional b = false.
Proof.
  exists "N", "json:""n,string,omitempty""", "n,string,omitempty", (mkBT "n" false false).
  split; [now apply lookup_spec|]. split; [exists "n,string"; left; reflexivity|].
  split; [left; reflexivity|reflexivity].
Qed.
Print Assumptions C61_optional_refuted.

(** Proved: it is optional iff omitempty is the first option; so never without the option. *)
Theorem C61_optional_partial : forall field tag key v,
  In key BindingTags -> tag_has tag key v ->
  exists b, In (key, b) (fst (ParseStructTag field tag)) /\
    (bt_returnOptional b = true <-> first_option v "omitempty") /\
    (bt_returnOptional b = true -> has_option v "omitempty").
Proof.
  intros field tag key v Hk Hv. exists (newBindingTag field v). split; [apply parse_tag_in; left; eauto|].
  split; [apply not_required|]. intros H. apply not_required in H. destruct H as (a & _ & H). exists a. exact H.
Qed.
Print Assumptions C61_optional_partial.

(** C61, full claim for rules: a validation is marked required iff required is one of its rules.
    False: required_if and the like count as well. *)
Theorem C61_required_refuted : exists field tag v,
  tag_has tag "binding" v /\ ~ has_rule v "required" /\ In ("binding", true) (snd (ParseStructTag field tag)).
Proof.
  exists "N", "binding:""required_if=Kind 1""", "required_if=Kind 1".
  split; [now apply lookup_spec|]. split; [|left; reflexivity].
  intros (a & b & E & Ha & Hb). assert (La : a = "").
  { destruct Ha as [Ha|(a' & ->)]; [exact Ha|]. exfalso.
    assert (C : has_char "," "required_if=Kind 1" = true).
    { rewrite E, !has_char_append. cbn. now rewrite orb_true_r. }
    discriminate. }
  subst a. cbn in E. injection E as E. destruct Hb as [-> |(b' & ->)]; discriminate.
Qed.
Print Assumptions C61_required_refuted.

(** Proved: exactly the non-empty validation tags are recorded; one with the rule is marked required,
    and one that is marked has the word. *)
Theorem C61_required_partial : forall field tag x flag,
  (In (x, flag) (snd (ParseStructTag field tag)) <->
   (x = "binding" \/ x = "validate") /\
   exists v, tag_has tag x v /\ v <> "" /\ (flag = true <-> exists a b, v = a ++ "required" ++ b)) /\
  (forall v, In (x, flag) (snd (ParseStructTag field tag)) -> tag_has tag x v -> has_rule v "required" -> flag = true).
Proof.
  intros field tag x flag.
  assert (HF : forall v, (flag = true <-> exists a b, v = a ++ "required" ++ b) <-> flag = contains "required" v).
  { intros v. pose proof (contains_spec "required" v) as C. rewrite <- C.
    destruct flag, (contains "required" v); intuition congruence. }
  assert (E : In (x, flag) (snd (ParseStructTag field tag)) <->
    In x ValidationTags /\ exists v, tag_has tag x v /\ v <> "" /\ flag = contains "required" v) by apply validations_in.
  split.
  - rewrite E. split.
    + intros (H1 & v & H2 & H3 & H4). split; [simpl in H1; intuition congruence|].
      exists v. split; [exact H2|]. split; [exact H3|]. now apply HF.
    + intros (H1 & v & H2 & H3 & H4). split; [simpl; intuition congruence|].
      exists v. split; [exact H2|]. split; [exact H3|]. now apply HF.
  - intros v H Hv Hr. apply E in H as (_ & v' & Hv' & _ & ->).
    apply lookup_spec in Hv, Hv'. assert (v' = v) by congruence. subst v'. now apply rule_contained.
Qed.
Print Assumptions C61_required_partial.
Example C61_nontrivial :
  tag_has C11_tag "json" "id,omitempty" /\ first_option "id,omitempty" "omitempty" /\
  ~ first_option "id,string" "omitempty" /\
  tag_has C11_tag "validate" "required" /\ has_rule "min=1,required,max=2" "required" /\
  snd (ParseStructTag "ID" "validate:""min=1,required,max=2"" binding:""""") = [("validate", true)].
Proof.
  split; [now apply lookup_spec|]. split; [exists "id"; split; [reflexivity|left; reflexivity]|].
  split; [intros H; apply second_item in H; [vm_compute in H; discriminate|reflexivity]|].
  split; [now apply lookup_spec|].
  split; [exists "min=1,", ",max=2"; split; [reflexivity|]; split; right; [exists "min=1"|exists "max=2"]; reflexivity|].
  reflexivity.
Qed.

(** C21: each response carries exactly the route's response headers, with their flags and schemas. *)
Theorem C21_headers : forall o custom config routes components names0 d names r op status resp,
  generated o custom config routes components names0 d names ->
  distinct_routes routes -> (forall r, In r routes -> gin_path (rt_path r)) ->
  In r routes -> documents d r op -> Forall unbound (rt_respHeaders r) ->
  mlookup status (op_responses op) = Some resp ->
  (forall n, In n (map fst (resp_headers resp)) <-> exists p, In p (rt_respHeaders r) /\ p_name p = n) /\
  (forall n h, mlookup n (resp_headers resp) = Some h ->
     exists p, In p (rt_respHeaders r) /\ p_name p = n /\ h_required h = p_isRequired p /\
       mapParamToSchema names HeaderBindingTag p = Some (h_schema h)).
Proof.
  intros o custom config routes components names0 d names r op status resp G HN Hg Hr [Ho _] Hu Hl.
  destruct (documents_op_at _ _ _ _ _ _ _ _ _ _ G HN Hg Hr Ho) as (j & ->).
  unfold op_at, operationOf in Hl. cbn [op_responses] in Hl.
  assert (E : resp_headers resp = fold_left (addHeader names) (rt_respHeaders r) []).
  { eapply add_responses_headers; [|exact Hl]. discriminate. }
  rewrite E. destruct (headers_of names (rt_respHeaders r) [] Hu) as [H1 H2]. split.
  - intros n. change (map fst (fold_left (addHeader names) (rt_respHeaders r) [])) with (mkeys (fold_left (addHeader names) (rt_respHeaders r) [])).
    rewrite H1, in_map_iff. split.
    + intros [[]|(p & Hp & Hin)]. eauto.
    + intros (p & Hin & Hp). right. eauto.
  - intros n h El. destruct (H2 _ _ El) as [H|H]; [discriminate|exact H].
Qed.
Print Assumptions C21_headers.
Definition C21_hroute := mkRoute "" "" 0 "GET" "/" [] [] []
  [mkRet 200 "application/json" (field_of_type "string"); mkRet 404 "" (field_of_type "nil")] "" ""
  [] [mkParam "X-A" (field_of_type "string") true false false false; mkParam "X-B" (field_of_type "int") false false false false].
Example C21_headers_nontrivial :
  Forall unbound (rt_respHeaders C21_hroute) /\
  exists d names op resp, generated plain_orders [] cfg [C21_hroute] [] [] d names /\ documents d C21_hroute op /\
    mlookup "404" (op_responses op) = Some resp /\
    map (fun h => (fst h, h_required (snd h))) (resp_headers resp) = [("X-A", true); ("X-B", false)].
Proof.
  split; [repeat constructor|]. do 4 eexists. split; [eexists; vm_compute; reflexivity|].
  split; [split; [|split]; [eexists; split; vm_compute; reflexivity|reflexivity|reflexivity]|].
  split; [vm_compute; reflexivity|reflexivity].
Qed.

(** C23: object query parameters are written as deepObject, all others as forms; nothing else has a
    style. *)
Theorem C23_styles : forall o custom config routes components names0 d names path method op q,
  valid_orders o -> generated o custom config routes components names0 d names ->
  operation_at d path method op -> In q (op_parameters op) ->
  (pa_in q = "query" /\ s_type (pa_schema q) = "object" /\ pa_style q = "deepObject" /\ pa_explode q = true) \/
  (pa_in q = "query" /\ s_type (pa_schema q) <> "object" /\ pa_style q = "form" /\ pa_explode q = false) \/
  ((pa_in q = "path" \/ pa_in q = "header") /\ pa_style q = "" /\ pa_explode q = false).
Proof.
  intros o custom config routes components names0 d names path method op q Hv G Ho Hq.
  destruct (operation_at_route _ _ _ _ _ _ _ _ _ _ _ G Ho) as (i & r & _ & _ & ->).
  unfold op_at, operationOf in Hq. cbn [op_parameters] in Hq.
  destruct Hv as (_ & _ & _ & _ & Hs). destruct (Hs ["route"; itoa (Z.of_nat i)] (simpleParams names URIBindingTag "path" (rt_pathParams r)
                   ++ simpleParams names HeaderBindingTag "header" (rt_reqHeaders r)
                   ++ queryParams (typeMapping custom) o names components ["route"; itoa (Z.of_nat i)] 0 (rt_queryParams r))%list) as [HP _].
  apply (Permutation_in _ (Permutation_sym HP)) in Hq. rewrite !in_app_iff in Hq.
  assert (S : style_ok q /\ (pa_in q = "query" \/ pa_in q = "path" \/ pa_in q = "header")).
  { destruct Hq as [H|[H|H]].
    - apply simple_style in H; [tauto|discriminate].
    - apply simple_style in H; [tauto|discriminate].
    - apply query_params_of in H as (p & j & _ & H). apply query_style in H. tauto. }
  destruct S as [S P]. unfold style_ok in S. destruct (String.eqb (pa_in q) "query") eqn:E.
  - apply String.eqb_eq in E. destruct (String.eqb (s_type (pa_schema q)) "object") eqn:E2; injection S as S1 S2.
    + apply String.eqb_eq in E2. left. auto.
    + apply String.eqb_neq in E2. right; left. auto.
  - apply String.eqb_neq in E. injection S as S1 S2. right; right. tauto.
Qed.
Print Assumptions C23_styles.

(** C23: the parameters of a bound query struct: each shown field of a struct without embedded
    fields is documented, and every documented query parameter is either named or a shown field. *)
Theorem C23_bound_query_partial : forall o custom config routes components names0 d names r op p c n,
  valid_orders o -> generated o custom config routes components names0 d names ->
  distinct_routes routes -> (forall r, In r routes -> gin_path (rt_path r)) ->
  In r routes -> documents d r op ->
  In p (rt_queryParams r) -> p_isBound p = true -> ~ In (f_type (p_field p)) AcceptedTypes ->
  makeComponentRefName names "form" (f_type (p_field p)) (f_package (p_field p)) <> None ->
  In c components -> f_package c = f_package (p_field p) -> f_name c = f_type (p_field p) ->
  (forall c', In c' components -> f_package c' = f_package c -> f_name c' = f_name c -> c' = c) ->
  map_bindings (f_structFields c) ->
  (forall k f, In (k, f) (f_structFields c) -> f_isEmbedded f = false /\ map_bindings (f_structFields f) /\
     (f_type f = "struct" -> all_bound "form" (f_structFields f))) ->
  all_bound "form" (f_structFields c) ->
  typeMapping custom (f_name c) (f_package c) = None -> f_type c = "struct" ->
  shown "form" (f_structFields c) n -> In (n, "query", p_isRequired p) (entries op).
Proof.
  intros o custom config routes components names0 d names r op p c n Hv G HN Hg Hr [Ho _] Hp Hb Ha Hnm Hc E1 E2 U Hm Hm2 Hab Ht Hs Hsh.
  destruct (documents_op_at _ _ _ _ _ _ _ _ _ _ G HN Hg Hr Ho) as (i & ->).
  unfold entries, op_at, operationOf. cbn [op_parameters].
  pose proof Hv as (_ & _ & _ & Hpr & Hso). destruct (Hso ["route"; itoa (Z.of_nat i)] (simpleParams names URIBindingTag "path" (rt_pathParams r)
                   ++ simpleParams names HeaderBindingTag "header" (rt_reqHeaders r)
                   ++ queryParams (typeMapping custom) o names components ["route"; itoa (Z.of_nat i)] 0 (rt_queryParams r))%list) as [HP _].
  destruct (query_params_all (typeMapping custom) o names components ["route"; itoa (Z.of_nat i)] _ p 0 Hp) as (j & Hj).
  set (site := itoa (Z.of_nat j) :: ["route"; itoa (Z.of_nat i)]) in *.
  assert (Hd : componentToSchema (typeMapping custom) o names "form" site c <> None).
  { apply component_schema_iff; auto. right; right. exact Hab. }
  destruct (componentToSchema (typeMapping custom) o names "form" site c) as [s|] eqn:Es; [|congruence].
  assert (Hk := shown_props custom o names "form" site c s n Hv Hm Hm2 Ht Hs Es Hsh).
  assert (Ef : findComponentByPackageAndType components (f_package (p_field p)) (f_type (p_field p)) = Some c).
  { rewrite <- E1, <- E2. destruct (findComponentByPackageAndType components (f_package c) (f_name c)) as [c'|] eqn:Ef.
    - apply find_component in Ef as (Hc' & A & B). now rewrite (U c' Hc' A B).
    - exfalso. unfold findComponentByPackageAndType in Ef. apply find_none with (x := c) in Ef; auto.
      rewrite !String.eqb_refl in Ef. discriminate. }
  apply in_map_iff in Hk as ((n' & sc) & En & Hk). cbn in En. subst n'.
  assert (Hq : exists q, In q (queryParam (typeMapping custom) o names components site p) /\
                         (pa_name q, pa_in q, pa_required q) = (n, "query", p_isRequired p)).
  { unfold queryParam, mapParamToSchema. rewrite Hb. unfold mapFieldToSchema.
    assert (A : IsAcceptedType (f_type (p_field p)) = false) by now apply accepted_false. rewrite A. cbn [negb].
    unfold makeComponentRef.
    destruct (makeComponentRefName names FormBindingTag (f_type (p_field p)) (f_package (p_field p))) eqn:Em;
      [|elim Hnm; exact Em].
    rewrite Ef. change FormBindingTag with "form". rewrite Es.
    eexists. split.
    - apply in_map. eapply Permutation_in; [apply Hpr|exact Hk].
    - cbn. destruct (getQueryParamStyle sc). reflexivity. }
  destruct Hq as (q & Hq & <-). apply in_map_iff. exists q. split; [reflexivity|].
  eapply Permutation_in; [exact HP|]. rewrite !in_app_iff. right; right. now apply Hj.
Qed.
Print Assumptions C23_bound_query_partial.

Theorem C23_query_only : forall o custom config routes components names0 d names r op n b,
  valid_orders o -> generated o custom config routes components names0 d names ->
  distinct_routes routes -> (forall r, In r routes -> gin_path (rt_path r)) ->
  In r routes -> documents d r op -> (forall c, In c components -> map_bindings (f_structFields c)) ->
  In (n, "query", b) (entries op) ->
  exists p, In p (rt_queryParams r) /\ b = p_isRequired p /\
    ((unbound p /\ n = p_name p) \/
     (p_isBound p = true /\ exists c, In c components /\ f_package c = f_package (p_field p) /\
        f_name c = f_type (p_field p) /\ shown "form" (f_structFields c) n)).
Proof.
  intros o custom config routes components names0 d names r op n b Hv G HN Hg Hr [Ho _] Hm He.
  destruct (documents_op_at _ _ _ _ _ _ _ _ _ _ G HN Hg Hr Ho) as (i & ->).
  unfold entries, op_at, operationOf in He. cbn [op_parameters] in He.
  pose proof Hv as (_ & _ & _ & Hpr & Hso). destruct (Hso ["route"; itoa (Z.of_nat i)] (simpleParams names URIBindingTag "path" (rt_pathParams r)
                   ++ simpleParams names HeaderBindingTag "header" (rt_reqHeaders r)
                   ++ queryParams (typeMapping custom) o names components ["route"; itoa (Z.of_nat i)] 0 (rt_queryParams r))%list) as [HP _].
  apply in_map_iff in He as (q & Eq & Hq). apply (Permutation_in _ (Permutation_sym HP)) in Hq. injection Eq as En Ep Eb.
  rewrite !in_app_iff in Hq. destruct Hq as [H|[H|H]].
  - apply simple_style in H; [|discriminate]. destruct H. congruence.
  - apply simple_style in H; [|discriminate]. destruct H. congruence.
  - apply query_params_of in H as (p & j & Hp & H). exists p. split; [exact Hp|].
    pose proof (query_style _ _ _ _ _ _ _ H) as (_ & _ & Er). split; [congruence|].
    unfold queryParam in H. destruct (mapParamToSchema names FormBindingTag p) as [s|]; [|destruct H].
    destruct (p_isBound p) eqn:Hb.
    + right. split; [reflexivity|]. destruct (findComponentByPackageAndType _ _ _) as [c|] eqn:Ec; [|destruct H].
      destruct (componentToSchema _ _ _ _ _ _) as [cs|] eqn:Es; [|destruct H].
      apply find_component in Ec as (Hc & A & B). exists c. split; [exact Hc|]. split; [exact A|]. split; [exact B|].
      apply in_map_iff in H as ((n' & sc) & Eq & H).
      assert (n' = n). { rewrite <- Eq in En. destruct (getQueryParamStyle (snd (n', sc))). exact En. }
      subst n'. eapply props_shown; eauto. eapply Permutation_in; [apply Permutation_sym, Hpr|exact H].
    + left. split; [exact Hb|]. destruct (getQueryParamStyle s). destruct H as [<-|[]]. symmetry. exact En.
Qed.
Print Assumptions C23_query_only.

Definition C23_comp := scomp "m/p" "T" [tfield "string" "Y" "form:""y"""; tfield "int" "Z" "form:""-"""; tfield "int" "W" ""].
Definition C23_broute := mkRoute "" "" 0 "GET" "/" [] [mkParam "" (named_field "m/p" "T") false false false true; mkParam "a" (field_of_type "string") false false true false] [] [] "" "" [] [].
Example C23_bound_nontrivial :
  shown "form" (f_structFields C23_comp) "y" /\ all_bound "form" (f_structFields C23_comp) /\
  exists d names op, generated plain_orders [] cfg [C23_broute] [C23_comp] [] d names /\ documents d C23_broute op /\
    entries op = [("W", "query", false); ("a", "query", false); ("y", "query", false)] /\
    map pa_style (op_parameters op) = ["form"; "deepObject"; "form"] /\
    makeComponentRefName names "form" "T" "m/p" = Some "p.T".
Proof.
  split.
  { eexists "Y", _, _. split; [left; reflexivity|]. split; [reflexivity|].
    split; [left; split; [left; reflexivity|discriminate]|]. split; reflexivity. }
  split.
  { intros k f [H|[H|[H|[]]]] _; injection H as <- <-.
    - eexists. left. split; [left; reflexivity|discriminate].
    - eexists. left. split; [left; reflexivity|discriminate].
    - eexists. right. split; [|split; [left; reflexivity|discriminate]]. intros b [[H|[]] _]. discriminate. }
  do 3 eexists. split; [eexists; vm_compute; reflexivity|].
  split; [split; [|split]; [eexists; split; vm_compute; reflexivity|reflexivity|reflexivity]|].
  split; [reflexivity|]. split; reflexivity.
Qed.

(** C29: the fields of a struct: exactly the exported ones, in order, each with its tags and with
    whether it is embedded. *)
Theorem C29_struct_fields : forall fuel env add pkg name fs l r,
  TypeResult fuel env add pkg name (GStruct fs) = (l, Ok r) ->
  Forall2 (fun f kx => fst kx = gf_name f /\ f_isEmbedded (snd kx) = gf_embedded f /\
             f_bindingTags (snd kx) = fst (ParseStructTag (gf_name f) (gf_tag f)) /\
             f_validationTags (snd kx) = snd (ParseStructTag (gf_name f) (gf_tag f)))
          (filter gf_exported fs) (f_structFields (ParseResultToField r)).
Proof.
  intros fuel env add pkg name fs l r E. destruct (struct_entries _ _ _ _ _ _ _ _ E) as (kvs & -> & F2).
  clear E. induction F2 as [|f kv gs kvs (l1 & r1 & r' & m & _ & _ & ->) F IH]; constructor; [|exact IH].
  cbn [fst snd]. rewrite parse_eq. repeat split.
Qed.
Print Assumptions C29_struct_fields.
Example C29_struct_fields_nontrivial :
  exists l r, TypeResult 9 shop_env true (Some "m") ""
    (GStruct [mkGF "Item" true true "" (GNamed 0) (fun _ => None); mkGF "note" false false "" tstring (fun _ => None);
              mkGF "N" true false "json:""n""" tint (fun _ => None)]) = (l, Ok r) /\
    map (fun kx => (fst kx, f_isEmbedded (snd kx))) (f_structFields (ParseResultToField r)) = [("Item", true); ("N", false)].
Proof. do 2 eexists. split; [vm_compute; reflexivity|]. vm_compute. reflexivity. Qed.

(** C53: the enum values of a component are in its schema. *)
Theorem C53_enum_in_schema : forall custom o names t site c s,
  typeMapping custom (f_name c) (f_package c) = None -> In (f_type c) (map fst basic_shapes) ->
  componentToSchema (typeMapping custom) o names t site c = Some s -> s_enum s = f_enum c.
Proof. exact enum_in_schema. Qed.
Print Assumptions C53_enum_in_schema.
Example C53_schema_nontrivial :
  exists s, componentToSchema (typeMapping []) plain_orders [] "json" []
    (mkField "m" "string" "Color" [EStr "Red"; EStr "G"] false false "" "" 0 "" "" "" [] [] [] "") = Some s /\
  s_enum s = [EStr "Red"; EStr "G"].
Proof. eexists. split; [vm_compute; reflexivity|reflexivity]. Qed.

(** C54: the description of each schema is the comment of a component of that name ... *)
Theorem C54_schema_description : forall o custom config routes components names0 d names n s,
  generated o custom config routes components names0 d names -> mlookup n (d_schemas d) = Some s ->
  exists c bt, In c components /\ In bt BindingTags /\
    makeComponentRefName names bt (f_name c) (f_package c) = Some n /\ s_desc s = f_doc c.
Proof.
  intros o custom config routes components names0 d names n s G H.
  destruct (generated_inv _ _ _ _ _ _ _ _ G) as (cf & _ & _ & _ & E). rewrite E in H.
  apply mlookup_In in H. unfold addSchemas in H. apply schemas_from in H.
  destruct H as [[]|(c & bt & site & s' & Hc & (Hb & Hn) & _ & Hd & _)]. exists c, bt. auto.
Qed.
Print Assumptions C54_schema_description.
(** ... but comments on fields are lost: no property has a description of its own. *)
Theorem C54_properties_undescribed : forall custom o names t site c s n ps,
  (forall site (A : Type) (l : list A), Permutation l (o_fields o site A l)) ->
  componentToSchema (typeMapping custom) o names t site c = Some s -> In (n, ps) (all_props s) -> s_desc ps = "".
Proof.
  intros custom o names t site c s n ps Hf E H. rewrite component_to_schema_eq in E.
  destruct (typeMapping custom (f_name c) (f_package c)) as [tf|].
  { injection E as <-. unfold mapTypeFormat in H. destruct (typeMapping _ _ _) as [tf'|]; [destruct (String.eqb _ _)|]; destruct H. }
  destruct (String.eqb (f_type c) "struct").
  2:{ cbv zeta in E. repeat match type of E with context [if ?b then _ else _] => destruct b end;
      try match type of E with context [makeComponentRef ?a ?b ?c ?d] => destruct (makeComponentRef a b c d) end;
      injection E as <-; cbn in H; try (destruct H);
      unfold mapPredefinedTypeFormat, all_props in H; destruct (mlookup _ _) as [tf'|]; try destruct (String.eqb _ _); destruct H. }
  rewrite struct_loop_eq in E. destruct (forallb _ _); [|discriminate]. cbn [app] in E.
  set (es := o_fields o site (Field * option Schema) (field_entries (typeMapping custom) o names t site (f_structFields c))) in *.
  assert (Hm : In (n, ps) (fold_left (fun m kv => minsert (fst kv) (snd kv) m) (flat_map (shown_entry t) es) [])).
  { revert E. generalize (fold_left (fun m kv => minsert (fst kv) (snd kv) m) (flat_map (shown_entry t) es) []). intros m E.
    assert (He : flat_map s_props (flat_map (embedded_entry names t) es) = []).
    { clear. induction es as [|e es IH]; simpl; auto. rewrite flat_map_app, IH, app_nil_r.
      unfold embedded_entry. destruct (f_isEmbedded (fst e)); auto. destruct (makeComponentRef _ _ _ _); auto. }
    unfold finishStruct in E. unfold all_props in H.
    destruct (flat_map (embedded_entry names t) es) as [|e l]; destruct m as [|kv m]; injection E as <-;
      cbn [objectSchema s_props s_allOf app] in H.
    - destruct H.
    - cbn [flat_map] in H. now rewrite app_nil_r in H.
    - rewrite He in H. destruct H.
    - change (e :: l ++ [mkSchema "" "" "" 0 [] [] None (kv :: m) None ""])%list with
        ((e :: l) ++ [mkSchema "" "" "" 0 [] [] None (kv :: m) None ""])%list in H.
      rewrite flat_map_app, He in H. cbn [flat_map app s_props] in H. now rewrite app_nil_r in H. }
  apply (mof_in (flat_map (shown_entry t) es) (fun s => s_desc s = "")) with (kv := (n, ps)) in Hm; [exact Hm|intros ? []|].
  intros (n' & s') H'. cbn [snd]. apply in_flat_map in H' as (e & He & H').
  apply (Permutation_in _ (Permutation_sym (Hf site _ _))) in He.
  apply in_map_iff in He as ([k f] & <- & Hkf). unfold shown_entry in H'. cbn [fst snd] in H'.
  destruct (f_isEmbedded f); [destruct H'|]. destruct (fieldBindingOf t f) as [b|]; [|destruct H'].
  destruct (negb _); [|destruct H'].
  destruct (componentToSchema _ _ _ _ _ f) eqn:Ec; [|destruct H']. destruct H' as [H'|[]]. injection H' as _ <-.
  eapply component_no_desc; eauto.
Qed.
Print Assumptions C54_properties_undescribed.
Theorem C54_property_description_refuted : exists fs f l r s ps,
  TypeResult 9 error_env true (Some "m") "" (GStruct fs) = (l, Ok r) /\ fs = [f] /\
  (forall p, gf_at f p = Some (NField ["A"] "why")) /\
  componentToSchema (typeMapping []) plain_orders [] "json" [] (ParseResultToField r) = Some s /\
  s_props s = [("A", ps)] /\ s_desc ps = "".
Proof.
  set (f := mkGF "A" true false "" tstring (fun _ => Some (NField ["A"] "why"))).
  exists [f], f. do 4 eexists. split; [vm_compute; reflexivity|]. split; [reflexivity|]. split; [reflexivity|].
  split; [vm_compute; reflexivity|]. split; reflexivity.
Qed.
Print Assumptions C54_property_description_refuted.
Definition C54_comp : Field := mkField "m/p" "struct" "T" [] false false "" "" 0 "" "" "" [tfield "string" "A" ""] [] [] "A thing.".
Example C54_schema_nontrivial :
  exists d names, generated plain_orders [] cfg [] [C54_comp] [] d names /\
    map (fun ns => (fst ns, s_desc (snd ns))) (d_schemas d) = [("p.T", "A thing.")].
Proof. do 2 eexists. split; [eexists; vm_compute; reflexivity|reflexivity]. Qed.

(** C60, full claim: for every type with a shape, the schema of a value describes the shape.  False
    of bytes and runes, which are documented as strings ... *)
Definition value_schema (names : list (string * string)) (t : string) (r : Result) : option Schema :=
  mapFieldToSchema names t (ParseResultToField r).
Definition value_misdescribed (env : TypeEnv) (ty : gtype) (names : list (string * string)) : Prop :=
  exists fuel l r s sh, TypeResult fuel env true (Some "m") "" ty = (l, Ok r) /\ json_shape env ty sh /\
    value_schema names "json" r = Some s /\ ~ describes (name_in names "json") s sh.
Definition value_undescribed (env : TypeEnv) (ty : gtype) (names : list (string * string)) : Prop :=
  exists fuel l r sh, TypeResult fuel env true (Some "m") "" ty = (l, Ok r) /\ json_shape env ty sh /\
    value_schema names "json" r = None.
Ltac misdescribed := exists 9; do 4 eexists; split; [vm_compute; reflexivity|]; split; [|split; [vm_compute; reflexivity|]].
Theorem C60_byte_refuted : exists env ty, ty = GBasic "byte" KOther /\ value_misdescribed env ty [].
Proof.
  exists error_env, (GBasic "byte" KOther). split; [reflexivity|]. misdescribed.
  - constructor. cbn. do 12 right. left. reflexivity.
  - intros H. inversion H; subst. cbn in *. discriminate.
Qed.
Print Assumptions C60_byte_refuted.
(** ... of byte slices, which are strings in JSON but documented as arrays ... *)
Theorem C60_bytes_refuted : exists env ty, ty = GSlice (GBasic "byte" KOther) /\ value_misdescribed env ty [].
Proof.
  exists error_env, (GSlice (GBasic "byte" KOther)). split; [reflexivity|]. misdescribed.
  - apply js_bytes. exists "byte", KOther. auto.
  - intros H. inversion H; subst. cbn in *. discriminate.
Qed.
Print Assumptions C60_bytes_refuted.
(** ... of slices of slices, whose elements' elements are not documented ... *)
Theorem C60_nested_refuted : exists env ty, ty = GSlice (GSlice tstring) /\ value_misdescribed env ty [].
Proof.
  exists error_env, (GSlice (GSlice tstring)). split; [reflexivity|]. misdescribed.
  - apply js_slice; [apply js_slice; [constructor; cbn; right; left; reflexivity|]|];
      intros (b & k & E & [-> | ->]); discriminate.
  - intros H. inversion H as [| | | |? i e R T I D| |]; subst. cbn in I. injection I as <-.
    inversion D as [| | | |? i e' R' T' I' D'| |]; subst. cbn in I'. discriminate.
Qed.
Print Assumptions C60_nested_refuted.
(** ... of a type called file, which is documented as an uploaded file ... *)
Definition file_env : TypeEnv := env_of [(Some "m", "file", GStruct [gf "Name" tstring], "")] no_decls.
Theorem C60_file_refuted : exists env id, te_name env id = "file" /\ value_misdescribed env (GNamed id) [("m.file", "m.file")].
Proof.
  exists file_env, 0. split; [reflexivity|]. misdescribed.
  - now apply js_named.
  - intros H. inversion H; subst. cbn in *. discriminate.
Qed.
Print Assumptions C60_file_refuted.
(** ... and of arrays, which have no schema at all. *)
Theorem C60_array_refuted : exists env ty, ty = GArray 3 tstring /\ value_undescribed env ty [].
Proof.
  exists error_env, (GArray 3 tstring). split; [reflexivity|]. exists 9. do 3 eexists.
  split; [vm_compute; reflexivity|]. split; [|vm_compute; reflexivity].
  apply js_array. constructor. cbn. right. left. reflexivity.
Qed.
Print Assumptions C60_array_refuted.

(** Proved for built-in types other than byte and rune, for named types, for pointers to, and for
    slices and maps of these: the value has a schema, which describes its shape ... *)
Theorem C60_value_partial : forall env names t fuel add pkg l r ty,
  flat_type env (name_in names t) false ty -> TypeResult fuel env add pkg "" ty = (l, Ok r) ->
  exists sh s, json_shape env ty sh /\ mapFieldToSchema names t (ParseResultToField r) = Some s /\
    describes (name_in names t) s sh.
Proof. intros env names t fuel add pkg l r ty. apply field_describes. Qed.
Print Assumptions C60_value_partial.

(** ... and so it is, for these types and for arrays, with the properties of a struct. *)
Theorem C60_property_partial : forall env names t custom o site fuel add pkg name fs l r f b s,
  valid_orders o -> (forall p, typeMapping custom "" p = None) ->
  TypeResult fuel env add pkg name (GStruct fs) = (l, Ok r) ->
  (forall g, In g fs -> gf_name g <> "") -> NoDup (map gf_name fs) ->
  typeMapping custom (f_name (ParseResultToField r)) (f_package (ParseResultToField r)) = None ->
  In f fs -> own_property t f b -> flat_type env (name_in names t) true (gf_type f) ->
  (forall g b', In g fs -> own_property t g b' -> bt_name b' = bt_name b -> g = f) ->
  componentToSchema (typeMapping custom) o names t site (ParseResultToField r) = Some s ->
  exists sh ps, json_shape env (gf_type f) sh /\ In (bt_name b, ps) (all_props s) /\ describes (name_in names t) ps sh.
Proof. exact struct_property. Qed.
Print Assumptions C60_property_partial.

Definition C60_fields := [mkGF "ID" true false "json:""id""" tint (fun _ => None);
                          mkGF "Tags" true false "json:""tags""" (GSlice (GNamed 1)) (fun _ => None);
                          mkGF "Cells" true false "json:""cells""" (GArray 3 (GBasic "float64" KFloat)) (fun _ => None);
                          mkGF "M" true false "json:""m,omitempty""" (GMap tstring (GPointer (GNamed 0))) (fun _ => None)].
Definition C60_names := [("shop/tags.Tag", "tags.Tag"); ("shop/types.Item", "types.Item")].
Example C60_nontrivial :
  Forall (fun f => flat_type shop_env (name_in C60_names "json") true (gf_type f) /\ exists b, own_property "json" f b) C60_fields /\
  exists l r s, TypeResult 9 shop_env true (Some "shop") "" (GStruct C60_fields) = (l, Ok r) /\
    componentToSchema (typeMapping []) plain_orders C60_names "json" [] (ParseResultToField r) = Some s /\
    map fst (all_props s) = ["cells"; "id"; "m"; "tags"].
Proof.
  split.
  - assert (T1 : plain_type shop_env (name_in C60_names "json") (GNamed 1)).
    { eapply pl_named; [reflexivity|simpl; intuition discriminate|discriminate|reflexivity|vm_compute; discriminate]. }
    assert (T0 : plain_type shop_env (name_in C60_names "json") (GNamed 0)).
    { eapply pl_named; [reflexivity|simpl; intuition discriminate|discriminate|reflexivity|vm_compute; discriminate]. }
    assert (TB : forall b k, In b ["int"; "float64"] -> plain_type shop_env (name_in C60_names "json") (GBasic b k)).
    { intros b k [<-|[<-|[]]]; constructor; try discriminate; simpl; tauto. }
    unfold C60_fields. repeat (apply Forall_cons; [split|]); try apply Forall_nil; cbn [gf_type].
    all: try (eexists; split; [reflexivity|]; split; [reflexivity|]; split; [left; left; reflexivity|reflexivity]).
    + apply fl_plain. apply (TB "int"). simpl; tauto.
    + apply fl_slice; [exact T1|]. intros (b & k & E & _). discriminate.
    + apply fl_array; [reflexivity|]. apply (TB "float64"). simpl; tauto.
    + eapply fl_map; [constructor; simpl; tauto|]. now constructor.
  - do 3 eexists. split; [vm_compute; reflexivity|]. split; [vm_compute; reflexivity|reflexivity].
Qed.
