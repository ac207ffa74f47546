(** C18-C26: the OpenAPI document. *)
From Coq Require Import List String Ascii Bool ZArith Arith Lia Permutation Sorted.
From Verif Require Import BaseStr BaseMap M_Types M_Paths S_Paths P_Paths M_Tags S_Tags P_Tags S_Collect
  M_OpenAPI S_Names P_Names Props_Names S_OpenAPI P_OpenAPI P_Schema.
Import ListNotations.
Local Open Scope string_scope.

Definition cfg := Some (mkConfig "t" "d" "1" ("", "", "") ("", "") false "h" "/" 80).
Definition tfield (typ name tag : string) : string * Field :=
  (name, mkField "" typ "" [] false false "" "" 0 "" "" "" [] (fst (ParseStructTag name tag)) [] "").
Definition efield (pkg typ : string) : string * Field :=
  (typ, mkField pkg typ "" [] false true "" "" 0 "" "" "" [] (fst (ParseStructTag typ "")) [] "").
Definition scomp (pkg name : string) (fields : list (string * Field)) : Field :=
  mkField pkg "struct" name [] false false "" "" 0 "" "" "" fields [] [] "".
Definition named_field (pkg typ : string) : Field := mkField pkg typ "" [] false false "" "" 0 "" "" "" [] [] [] "".
Definition route0 (method path : string) : Route := mkRoute "" "" 0 method path [] [] [] [] "" "" [] [].

Lemma tfield_parsed fields :
  (forall k f, In (k, f) fields -> (exists typ name tag, name <> "" /\ (k, f) = tfield typ name tag) \/
                                   (exists pkg typ, typ <> "" /\ (k, f) = efield pkg typ)) ->
  parsed_fields fields.
Proof.
  intros H k f Hin. destruct (H k f Hin) as [(typ & name & tag & Hn & E)|(pkg & typ & Hn & E)].
  - exists name, tag. split; auto. injection E as -> ->. apply Permutation_refl.
  - exists typ, "". split; auto. injection E as -> ->. apply Permutation_refl.
Qed.

Ltac parse_fields :=
  apply tfield_parsed; let k := fresh in let f := fresh in let H := fresh in
  intros k f H; simpl in H;
  repeat (destruct H as [H|H]; [rewrite <- H; first [left; do 3 eexists; split; [|reflexivity]; discriminate
                                                   |right; do 2 eexists; split; [|reflexivity]; discriminate]|]);
  destruct H.

(** C18, full claim: every reference resolves.  False: a struct with an untagged embedded field
    and a tagged one, returned as XML, is referred to by a name without schema. *)
Definition C18_bad := [scomp "m/p" "Base" [tfield "string" "X" ""];
                       scomp "m/p" "T" [efield "m/p" "Base"; tfield "string" "ID" "json:""id"" form:""ID"""]].
Definition C18_route :=
  mkRoute "" "" 0 "GET" "/" [] [] [] [mkRet 200 "application/xml" (named_field "m/p" "T")] "" "" [] [].
Theorem C18_references_resolve_refuted :
  exists components routes d names r,
    parsed_components components /\ NoDup (map comp_key components) /\
    generated plain_orders [] cfg routes components [] d names /\
    In r (document_refs d) /\ ~ resolves d r.
Proof.
  exists C18_bad, [C18_route]. eexists _, _, "#/components/schemas/p..T".
  split; [intros c [<-|[<-|[]]]; parse_fields|].
  split; [repeat constructor; simpl; intuition discriminate|].
  split; [eexists; vm_compute; reflexivity|]. split; [vm_compute; tauto|].
  intros (n & s & E & H). vm_compute in E. injection E as <-. vm_compute in H. discriminate.
Qed.
Print Assumptions C18_references_resolve_refuted.

(** Proved, for every service, every iteration order and every custom mapping: if each component
    is covered, every reference resolves ... *)
Theorem C18_references_resolve_partial : forall o custom config routes components d names,
  valid_orders o -> parsed_components components -> unambiguous components ->
  NoDup (map comp_key components) -> (forall c, In c components -> covered custom c) ->
  generated o custom config routes components [] d names ->
  forall r, In r (document_refs d) -> resolves d r.
Proof. exact all_refs_resolve. Qed.
Print Assumptions C18_references_resolve_partial.

(** ... in particular if the fields of each struct all have the same tags. *)
Theorem C18_uniform_tags_resolve_partial : forall o custom config routes components d names,
  valid_orders o -> parsed_components components -> unambiguous components ->
  NoDup (map comp_key components) -> (forall c, In c components -> uniform c) ->
  generated o custom config routes components [] d names ->
  forall r, In r (document_refs d) -> resolves d r.
Proof.
  intros o custom config routes components d names Ho Hp Hu HN Hc. apply all_refs_resolve; auto.
  intros c Hin. apply uniform_covered; auto.
Qed.
Print Assumptions C18_uniform_tags_resolve_partial.

Definition C18_good := [scomp "m/p" "Base" [tfield "string" "X" ""];
                        scomp "m/p" "T" [tfield "string" "ID" "json:""id"" form:""ID"""; tfield "Base" "B" "json:""b"" form:""B"""]].
Definition C18_good_routes :=
  [mkRoute "" "" 0 "GET" "/" [] [] [] [mkRet 200 "application/json" (named_field "m/p" "T");
                                     mkRet 200 "application/xml" (named_field "m/p" "Base")] "" "" [] []].
Example C18_nontrivial :
  parsed_components C18_good /\ unambiguous C18_good /\ NoDup (map comp_key C18_good) /\
  (forall c, In c C18_good -> uniform c) /\
  exists d names, generated plain_orders [] cfg C18_good_routes C18_good [] d names /\
    In "#/components/schemas/p.json.T" (document_refs d) /\ In "#/components/schemas/p.Base" (document_refs d).
Proof.
  split; [intros c [<-|[<-|[]]]; parse_fields|].
  split; [|split; [|split]].
  - split.
    + intros c [<-|[<-|[]]]; reflexivity.
    + intros c1 c2 t [<-|[<-|[]]] [<-|[<-|[]]] Ht; simpl in Ht;
        repeat destruct Ht as [<-|Ht]; try destruct Ht; discriminate.
  - repeat constructor; simpl; intuition discriminate.
  - intros c [<-|[<-|[]]] k f k' f' t H1 H2; simpl in H1, H2;
      repeat (destruct H1 as [H1|H1]; [injection H1 as <- <-|]); try destruct H1;
      repeat (destruct H2 as [H2|H2]; [injection H2 as <- <-|]); try destruct H2; vm_compute; tauto.
  - do 2 eexists. split; [eexists; vm_compute; reflexivity|]. split; vm_compute; tauto.
Qed.

(** C19, full claim: the document does not depend on iteration orders.  False: two embedded
    structs are listed in iteration order. *)
Definition reversed_orders : Orders :=
  mkOrders (fun g => g) (fun _ _ l => rev l) (fun _ m => m) (fun _ l => l) (fun _ l => sort_params l).
Lemma reversed_orders_valid : valid_orders reversed_orders.
Proof.
  destruct plain_orders_valid as (H1 & _ & H3 & H4 & H5). repeat split; auto; try apply H5.
  intros site A l. apply Permutation_rev.
Qed.
Definition C19_components := [scomp "m/p" "A" [tfield "string" "X" ""]; scomp "m/p" "B" [tfield "string" "Y" ""];
                              scomp "m/p" "T" [efield "m/p" "A"; efield "m/p" "B"]].
Theorem C19_order_independent_refuted :
  exists o o' components d d' names names',
    valid_orders o /\ valid_orders o' /\ parsed_components components /\ NoDup (map comp_key components) /\
    generated o [] cfg [] components [] d names /\ generated o' [] cfg [] components [] d' names' /\ d <> d'.
Proof.
  exists plain_orders, reversed_orders, C19_components.
  do 4 eexists. split; [apply plain_orders_valid|]. split; [apply reversed_orders_valid|].
  split; [intros c [<-|[<-|[<-|[]]]]; parse_fields|].
  split; [repeat constructor; simpl; intuition discriminate|].
  split; [eexists; vm_compute; reflexivity|]. split; [eexists; vm_compute; reflexivity|]. discriminate.
Qed.
Print Assumptions C19_order_independent_refuted.

(** Two fields shown under the same name: the last one visited wins. *)
Theorem C19_same_name_refuted :
  exists o o' c t s s', valid_orders o /\ valid_orders o' /\ parsed_fields (f_structFields c) /\ In t BindingTags /\
    componentToSchema (typeMapping []) o [] t [] c = Some s /\
    componentToSchema (typeMapping []) o' [] t [] c = Some s' /\ s <> s'.
Proof.
  exists plain_orders, reversed_orders, (scomp "m/p" "T" [tfield "string" "X" "json:""a"""; tfield "int" "Y" "json:""a"""]), "json".
  do 2 eexists. split; [apply plain_orders_valid|]. split; [apply reversed_orders_valid|].
  split; [parse_fields|]. split; [simpl; tauto|].
  split; [vm_compute; reflexivity|]. split; [vm_compute; reflexivity|]. discriminate.
Qed.
Print Assumptions C19_same_name_refuted.

(** Proved: with at most one embedded field per struct, different shown names, and, for routes
    that bind query parameters to a struct, different parameter names, every order gives the same
    document, the same configuration and the same names.  sort.Slice is the same function in both
    runs; it need not be stable. *)
Theorem C19_order_independent_partial : forall o o' custom config routes components names0 d c names,
  valid_orders o -> valid_orders o' -> (forall s l, o_sort o s l = o_sort o' s l) ->
  parsed_components components -> unambiguous components -> NoDup (map comp_key components) -> msorted names0 ->
  (forall c, In c components -> order_safe c) ->
  buildDocument o custom config routes components names0 = Ok (d, c, names) ->
  (forall r op, In r routes -> documents d r op ->
     Forall unbound (rt_queryParams r) \/ NoDup (map pa_name (op_parameters op))) ->
  buildDocument o' custom config routes components names0 = Ok (d, c, names).
Proof. exact build_order. Qed.
Print Assumptions C19_order_independent_partial.

(** A component with several fields, one of them embedded, and a route bound to it. *)
Definition C19_good := [scomp "m/p" "A" [tfield "string" "X" "form:""x"""; tfield "int" "Y" "form:""y""";
                                         tfield "string" "Z" "form:""-"""]].
Definition C19_routes :=
  [mkRoute "" "" 0 "GET" "/" [] [mkParam "" (named_field "m/p" "A") false false false true] [] [] "" "" [] []].
Lemma leaf_order_safe k f typ name tag : (k, f) = tfield typ name tag -> order_safe f.
Proof.
  intros [= -> ->]. constructor; simpl.
  - intros ? ? [].
  - auto.
  - intros t [|i]; discriminate.
  - intros ? ? [].
Qed.
Example C19_nontrivial :
  (forall c, In c C19_good -> order_safe c) /\
  exists d names, buildDocument plain_orders [] cfg C19_routes C19_good [] = Ok (d, match cfg with Some c => c | None => mkConfig "" "" "" ("", "", "") ("", "") false "" "" 0 end, names) /\
    (forall r op, In r C19_routes -> documents d r op -> NoDup (map pa_name (op_parameters op)) /\ List.length (op_parameters op) = 2).
Proof.
  split.
  - intros c [<-|[]]. constructor.
    + apply parsed_map_bindings. simpl. parse_fields.
    + simpl. auto.
    + intros t i j k1 f1 b1 k2 f2 b2 Ht Hi Hj E1 E2 B1 B2 N1 N2 E.
      assert (Hm : map_bindings (f_structFields (scomp "m/p" "A" [tfield "string" "X" "form:""x"""; tfield "int" "Y" "form:""y"""; tfield "string" "Z" "form:""-"""]))).
      { apply parsed_map_bindings. simpl. parse_fields. }
      apply field_binding_spec in B1; [|eapply Hm, nth_error_In; eauto].
      apply field_binding_spec in B2; [|eapply Hm, nth_error_In; eauto].
      simpl in Ht. simpl f_structFields in Hi, Hj.
      destruct i as [|[|[|[|i]]]], j as [|[|[|[|j]]]]; try discriminate Hi; try discriminate Hj; auto;
        injection Hi as <- <-; injection Hj as <- <-;
        repeat destruct Ht as [<-|Ht]; try destruct Ht; vm_compute in B1, B2; try discriminate B1; try discriminate B2;
        injection B1 as <-; injection B2 as <-; try discriminate E; try discriminate N1; try discriminate N2.
    + intros k g Hin. simpl in Hin. repeat (destruct Hin as [Hin|Hin]; [symmetry in Hin; eapply leaf_order_safe; eauto|]).
      destruct Hin.
  - do 2 eexists. split; [vm_compute; reflexivity|].
    intros r op [<-|[]] [(item & Hl & Hs) _]. vm_compute in Hl. injection Hl as <-. vm_compute in Hs. injection Hs as <-.
    split; [vm_compute; repeat constructor; simpl; intuition discriminate|reflexivity].
Qed.

(** C20, full claim: every route whose method OpenAPI describes is documented.  False for TRACE. *)
Theorem C20_routes_documented_refuted :
  exists o routes d names r, valid_orders o /\ distinct_routes routes /\ generated o [] cfg routes [] [] d names /\
    In r routes /\ In (rt_method r) openapi_methods /\ gin_path (rt_path r) /\ forall op, ~ documents d r op.
Proof.
  exists plain_orders, [route0 "TRACE" "/"]. do 2 eexists. exists (route0 "TRACE" "/").
  split; [apply plain_orders_valid|]. split; [repeat constructor; auto|].
  split; [eexists; vm_compute; reflexivity|]. split; [simpl; auto|]. split; [simpl; tauto|].
  split; [repeat constructor|]. intros op [(item & Hl & Hs) _]. vm_compute in Hl. injection Hl as <-. discriminate Hs.
Qed.
Print Assumptions C20_routes_documented_refuted.

(** Proved for the other methods: every route has its operation, with its own id and text. *)
Theorem C20_routes_documented_partial : forall o custom config routes components names0 d names r,
  generated o custom config routes components names0 d names ->
  distinct_routes routes -> (forall r, In r routes -> gin_path (rt_path r)) ->
  In r routes -> In (rt_method r) openapi_methods -> rt_method r <> "TRACE" ->
  exists op, documents d r op.
Proof.
  intros o custom config routes components names0 d names r G HN Hg Hr Hm Ht.
  assert (Hd : In (rt_method r) described).
  { simpl in Hm. simpl. intuition congruence. }
  destruct (route_operation_at _ _ _ _ _ _ _ _ _ G Hr Hd) as (i & r' & _ & Ho).
  destruct (documents_op_at _ _ _ _ _ _ _ _ _ _ G HN Hg Hr Ho) as (j & E).
  exists (op_at (typeMapping custom) o names components i r'). split; auto.
  rewrite E. split; reflexivity.
Qed.
Print Assumptions C20_routes_documented_partial.

(** Nothing else is documented: each operation is that of a route. *)
Theorem C20_nothing_else : forall o custom config routes components names0 d names path method op,
  generated o custom config routes components names0 d names -> operation_at d path method op ->
  exists r, In r routes /\ openapi_path (rt_path r) = path /\ rt_method r = method /\ documents d r op.
Proof.
  intros o custom config routes components names0 d names path method op G Ho.
  destruct (operation_at_route _ _ _ _ _ _ _ _ _ _ _ G Ho) as (i & r & E & _ & ->).
  apply last_route_in in E as (Hr & <- & <-). exists r. repeat split; auto.
Qed.
Print Assumptions C20_nothing_else.

(** Every route has at least its path in the document, whatever its method. *)
Theorem C20_paths_exact : forall o custom config routes components names0 d names path,
  generated o custom config routes components names0 d names ->
  (In path (map fst (d_paths d)) <-> exists r, In r routes /\ openapi_path (rt_path r) = path).
Proof.
  intros o custom config routes components names0 d names path G.
  destruct (generated_inv _ _ _ _ _ _ _ _ G) as (c & _ & _ & Ep & _). rewrite Ep.
  pose proof (add_paths_key (typeMapping custom) o names components routes 0 [] path) as H. unfold mkeys in H.
  rewrite H. simpl. split; [intros [[]|]; auto|auto].
Qed.
Print Assumptions C20_paths_exact.

Definition C20_routes := [route0 "GET" "/u/:id"; route0 "POST" "/u/:id"; route0 "GET" "/u"].
Example C20_nontrivial :
  distinct_routes C20_routes /\ (forall r, In r C20_routes -> gin_path (rt_path r)) /\
  exists d names, generated plain_orders [] cfg C20_routes [] [] d names /\ map fst (d_paths d) = ["/u"; "/u/{id}"].
Proof.
  split; [repeat constructor; simpl; intuition discriminate|].
  split; [intros r [<-|[<-|[<-|[]]]]; repeat constructor|].
  do 2 eexists. split; [eexists; vm_compute; reflexivity|reflexivity].
Qed.

(** C21: exactly the recorded statuses are documented, all with the response headers ... *)
Theorem C21_statuses_exact : forall o custom config routes components names0 d names r op,
  generated o custom config routes components names0 d names ->
  distinct_routes routes -> (forall r, In r routes -> gin_path (rt_path r)) ->
  In r routes -> documents d r op ->
  forall status, In status (map fst (op_responses op)) <-> exists rt, In rt (rt_returns r) /\ status = itoa (r_status rt).
Proof.
  intros o custom config routes components names0 d names r op G HN Hg Hr [Ho _] status.
  destruct (documents_op_at _ _ _ _ _ _ _ _ _ _ G HN Hg Hr Ho) as (j & ->).
  unfold op_at, operationOf. cbn [op_responses].
  pose proof (add_responses_keys names (fold_left (addHeader names) (rt_respHeaders r) []) (rt_returns r) [] status) as H.
  unfold mkeys in H. rewrite H. simpl. split; [intros [[]|]; auto|auto].
Qed.
Print Assumptions C21_statuses_exact.

(** ... and different statuses have different keys. *)
Theorem C21_status_keys_distinct : forall a b, itoa a = itoa b -> a = b.
Proof. exact itoa_inj. Qed.
Print Assumptions C21_status_keys_distinct.

(** Full claim for the schemas: each return type's schema is under its status and content type.
    False when a handler answers with two types under one status and content type. *)
Definition C21_bad := mkRoute "" "" 0 "GET" "/" [] [] []
  [mkRet 200 "application/json" (field_of_type "string"); mkRet 200 "application/json" (field_of_type "int")] "" "" [] [].
Theorem C21_responses_described_refuted :
  exists r rt d names op s, In rt (rt_returns r) /\ generated plain_orders [] cfg [r] [] [] d names /\ documents d r op /\
    mapFieldToSchema names (ContentTypeToBindingTag (r_contentType rt)) (r_field rt) = Some s /\ s <> emptySchema /\
    forall resp, In (itoa (r_status rt), resp) (op_responses op) -> ~ In (r_contentType rt, s) (resp_content resp).
Proof.
  exists C21_bad, (mkRet 200 "application/json" (field_of_type "string")). do 4 eexists.
  split; [simpl; auto|]. split; [eexists; vm_compute; reflexivity|].
  split; [split; [|split]; [eexists; split; vm_compute; reflexivity|reflexivity|reflexivity]|].
  split; [vm_compute; reflexivity|]. split; [discriminate|].
  intros resp Hr Hc. vm_compute in Hr. destruct Hr as [Hr|[]]. injection Hr as <-.
  vm_compute in Hc. destruct Hc as [Hc|[]]. discriminate Hc.
Qed.
Print Assumptions C21_responses_described_refuted.

Lemma schema_empty s : schema_is_empty s = true -> s = emptySchema.
Proof.
  unfold schema_is_empty. destruct s as [ref t f ml [|] [|] [|] [|] [|] desc]; try discriminate. intros E.
  apply andb_true_iff in E as [E E5]. apply andb_true_iff in E as [E E4]. apply andb_true_iff in E as [E E3].
  apply andb_true_iff in E as [E1 E2]. apply String.eqb_eq in E1, E2, E3, E5. apply Z.eqb_eq in E4. now subst.
Qed.

(** Proved if no other return type has the same status and content type. *)
Theorem C21_responses_described_partial : forall o custom config routes components names0 d names r op rt s,
  generated o custom config routes components names0 d names ->
  distinct_routes routes -> (forall r, In r routes -> gin_path (rt_path r)) ->
  In r routes -> documents d r op -> In rt (rt_returns r) ->
  (forall rt', In rt' (rt_returns r) -> r_status rt' = r_status rt -> r_contentType rt' = r_contentType rt -> rt' = rt) ->
  mapFieldToSchema names (ContentTypeToBindingTag (r_contentType rt)) (r_field rt) = Some s -> s <> emptySchema ->
  exists resp, mlookup (itoa (r_status rt)) (op_responses op) = Some resp /\
    mlookup (r_contentType rt) (resp_content resp) = Some s.
Proof.
  intros o custom config routes components names0 d names r op rt s G HN Hg Hr [Ho _] Hrt Hu Es He.
  destruct (documents_op_at _ _ _ _ _ _ _ _ _ _ G HN Hg Hr Ho) as (j & ->).
  unfold op_at, operationOf. cbn [op_responses].
  assert (Em : media_of names rt = s) by (unfold media_of; rewrite Es; reflexivity).
  assert (Hne : schema_is_empty (media_of names rt) = false).
  { rewrite Em. destruct (schema_is_empty s) eqn:E; auto. exfalso. apply He. now apply schema_empty. }
  pose proof (add_responses_content names (fold_left (addHeader names) (rt_respHeaders r) []) (rt_returns r) [] rt Hrt Hne Hu) as H.
  unfold content_at in H. rewrite Em in H. destruct (mlookup _ _) as [resp|]; [|discriminate]. eauto.
Qed.
Print Assumptions C21_responses_described_partial.

(** Nothing else: each documented content is that of a return type with this status and content type. *)
Theorem C21_no_other_content : forall o custom config routes components names0 d names r op status resp ct s,
  generated o custom config routes components names0 d names ->
  distinct_routes routes -> (forall r, In r routes -> gin_path (rt_path r)) ->
  In r routes -> documents d r op -> mlookup status (op_responses op) = Some resp -> mlookup ct (resp_content resp) = Some s ->
  exists rt, In rt (rt_returns r) /\ status = itoa (r_status rt) /\ ct = r_contentType rt /\
    mapFieldToSchema names (ContentTypeToBindingTag (r_contentType rt)) (r_field rt) = Some s.
Proof.
  intros o custom config routes components names0 d names r op status resp ct s G HN Hg Hr [Ho _] Hl Hc.
  destruct (documents_op_at _ _ _ _ _ _ _ _ _ _ G HN Hg Hr Ho) as (j & ->).
  unfold op_at, operationOf in Hl. cbn [op_responses] in Hl.
  destruct (add_responses_content_in names (fold_left (addHeader names) (rt_respHeaders r) []) (rt_returns r) [] status ct s) as [H|(rt & Hrt & -> & -> & -> & He)].
  - unfold content_at. rewrite Hl. exact Hc.
  - discriminate.
  - exists rt. repeat split; auto. unfold media_of in *. destruct (mapFieldToSchema _ _ _); auto. discriminate.
Qed.
Print Assumptions C21_no_other_content.

(** With several, one of them is described. *)
Theorem C21_one_described : forall o custom config routes components names0 d names r op rt s,
  generated o custom config routes components names0 d names ->
  distinct_routes routes -> (forall r, In r routes -> gin_path (rt_path r)) ->
  In r routes -> documents d r op -> In rt (rt_returns r) ->
  mapFieldToSchema names (ContentTypeToBindingTag (r_contentType rt)) (r_field rt) = Some s -> s <> emptySchema ->
  exists resp s' rt', mlookup (itoa (r_status rt)) (op_responses op) = Some resp /\
    mlookup (r_contentType rt) (resp_content resp) = Some s' /\
    In rt' (rt_returns r) /\ r_status rt' = r_status rt /\ r_contentType rt' = r_contentType rt /\
    mapFieldToSchema names (ContentTypeToBindingTag (r_contentType rt')) (r_field rt') = Some s'.
Proof.
  intros o custom config routes components names0 d names r op rt s G HN Hg Hr D Hrt Es He. assert (Ho := proj1 D).
  destruct (documents_op_at _ _ _ _ _ _ _ _ _ _ G HN Hg Hr Ho) as (j & E).
  assert (Hne : schema_is_empty (media_of names rt) = false).
  { unfold media_of. rewrite Es. destruct (schema_is_empty s) eqn:X; auto. exfalso. apply He. now apply schema_empty. }
  assert (H := add_responses_some names (fold_left (addHeader names) (rt_respHeaders r) []) (rt_returns r) [] rt Hrt Hne).
  assert (C : content_at (itoa (r_status rt)) (r_contentType rt) (op_responses op) <> None) by (rewrite E; exact H).
  unfold content_at in C. destruct (mlookup (itoa (r_status rt)) (op_responses op)) as [resp|] eqn:E1; [|now elim C].
  destruct (mlookup (r_contentType rt) (resp_content resp)) as [s'|] eqn:E2; [|now elim C].
  destruct (C21_no_other_content _ _ _ _ _ _ _ _ _ _ _ _ _ _ G HN Hg Hr D E1 E2) as (rt' & I & S1 & S2 & S3).
  apply itoa_inj in S1. exists resp, s', rt'. auto 10.
Qed.
Print Assumptions C21_one_described.

Definition C21_good := mkRoute "" "" 0 "GET" "/" [] [] []
  [mkRet 200 "application/json" (field_of_type "string"); mkRet 404 "application/json" (field_of_type "int");
   mkRet 200 "application/xml" (field_of_type "bool"); mkRet 204 "" (field_of_type "nil")] "" "" [] [].
Example C21_nontrivial :
  exists d names op, generated plain_orders [] cfg [C21_good] [] [] d names /\ documents d C21_good op /\
    map fst (op_responses op) = ["200"; "204"; "404"] /\
    (forall rt rt', In rt (rt_returns C21_good) -> In rt' (rt_returns C21_good) ->
       r_status rt' = r_status rt -> r_contentType rt' = r_contentType rt -> rt' = rt).
Proof.
  do 3 eexists. split; [eexists; vm_compute; reflexivity|].
  split; [split; [|split]; [eexists; split; vm_compute; reflexivity|reflexivity|reflexivity]|].
  split; [reflexivity|].
  intros rt rt' H1 H2. simpl in H1, H2.
  destruct H1 as [<-|[<-|[<-|[<-|[]]]]], H2 as [<-|[<-|[<-|[<-|[]]]]]; simpl; try discriminate; auto.
Qed.

(** C22, full claim: every body parameter is described.  False: two form fields read one by one
    have the same content type, and the second replaces the first. *)
Definition form_field (name : string) : BodyParam :=
  mkBody name (field_of_type "string") "application/x-www-form-urlencoded" false false false false.
Definition C22_bad := mkRoute "" "" 0 "POST" "/" [] [] [form_field "a"; form_field "b"] [] "" "" [] [].
Theorem C22_bodies_described_refuted :
  exists r b d names op, In b (rt_body r) /\ generated plain_orders [] cfg [r] [] [] d names /\ documents d r op /\
    forall content s, op_requestBody op = Some content -> In (b_contentType b, s) content ->
      ~ In (b_name b) (property_names s).
Proof.
  exists C22_bad, (form_field "a"). do 3 eexists.
  split; [simpl; auto|]. split; [eexists; vm_compute; reflexivity|].
  split; [split; [|split]; [eexists; split; vm_compute; reflexivity|reflexivity|reflexivity]|].
  intros content s Hc Hs Hn. vm_compute in Hc. injection Hc as <-.
  vm_compute in Hs. destruct Hs as [Hs|[]]. injection Hs as <-. vm_compute in Hn. destruct Hn as [Hn|[]]. discriminate.
Qed.
Print Assumptions C22_bodies_described_refuted.

(** Proved if no other body parameter has the same content type: it is described, with its
    schema, under its name if it has one. *)
Theorem C22_bodies_described_partial : forall o custom config routes components names0 d names r op b s,
  generated o custom config routes components names0 d names ->
  distinct_routes routes -> (forall r, In r routes -> gin_path (rt_path r)) ->
  In r routes -> documents d r op -> In b (rt_body r) ->
  (forall b', In b' (rt_body r) -> b_contentType b' = b_contentType b -> b' = b) ->
  mapFieldToSchema names (ContentTypeToBindingTag (b_contentType b)) (b_field b) = Some s ->
  exists content, op_requestBody op = Some content /\
    mlookup (b_contentType b) content =
      Some (if String.eqb (b_name b) "" then s else objectSchema [(b_name b, s)]).
Proof.
  intros o custom config routes components names0 d names r op b s G HN Hg Hr [Ho _] Hb Hu Es.
  destruct (documents_op_at _ _ _ _ _ _ _ _ _ _ G HN Hg Hr Ho) as (j & ->).
  unfold op_at, operationOf. cbn [op_requestBody].
  pose proof (add_bodies_at names (rt_body r) None b (if String.eqb (b_name b) "" then s else objectSchema [(b_name b, s)]) Hb) as H.
  unfold body_schema in H at 1. rewrite Es in H. specialize (H eq_refl Hu).
  unfold body_at in H. destruct (fold_left (addBody names) (rt_body r) None) as [content|]; [|discriminate]. eauto.
Qed.
Print Assumptions C22_bodies_described_partial.

(** Whatever is in a request body comes from a recorded body parameter. *)
Theorem C22_no_other_body : forall o custom config routes components names0 d names r op content ct m,
  generated o custom config routes components names0 d names ->
  distinct_routes routes -> (forall r, In r routes -> gin_path (rt_path r)) ->
  In r routes -> documents d r op -> op_requestBody op = Some content -> mlookup ct content = Some m ->
  exists b s, In b (rt_body r) /\ b_contentType b = ct /\
    mapFieldToSchema names (ContentTypeToBindingTag ct) (b_field b) = Some s /\
    m = (if String.eqb (b_name b) "" then s else objectSchema [(b_name b, s)]).
Proof.
  intros o custom config routes components names0 d names r op content ct m G HN Hg Hr [Ho _] Hc Hl.
  destruct (documents_op_at _ _ _ _ _ _ _ _ _ _ G HN Hg Hr Ho) as (j & ->).
  unfold op_at, operationOf in Hc. cbn [op_requestBody] in Hc.
  destruct (add_bodies_in names (rt_body r) None ct m) as [H|(b & Hb & <- & Hs)].
  - rewrite Hc. exact Hl.
  - discriminate.
  - unfold body_schema in Hs. destruct (mapFieldToSchema _ _ _) as [s|] eqn:E; [|discriminate]. injection Hs as <-.
    exists b, s. auto.
Qed.
Print Assumptions C22_no_other_body.

(** With several, one of them is described. *)
Theorem C22_one_described : forall o custom config routes components names0 d names r op b s,
  generated o custom config routes components names0 d names ->
  distinct_routes routes -> (forall r, In r routes -> gin_path (rt_path r)) ->
  In r routes -> documents d r op -> In b (rt_body r) ->
  mapFieldToSchema names (ContentTypeToBindingTag (b_contentType b)) (b_field b) = Some s ->
  exists content b' s', op_requestBody op = Some content /\ In b' (rt_body r) /\ b_contentType b' = b_contentType b /\
    mapFieldToSchema names (ContentTypeToBindingTag (b_contentType b)) (b_field b') = Some s' /\
    mlookup (b_contentType b) content = Some (if String.eqb (b_name b') "" then s' else objectSchema [(b_name b', s')]).
Proof.
  intros o custom config routes components names0 d names r op b s G HN Hg Hr D Hb Es. assert (Ho := proj1 D).
  destruct (documents_op_at _ _ _ _ _ _ _ _ _ _ G HN Hg Hr Ho) as (j & E).
  assert (Hs : body_schema names b = Some (if String.eqb (b_name b) "" then s else objectSchema [(b_name b, s)])) by (unfold body_schema; now rewrite Es).
  assert (C : body_at (b_contentType b) (op_requestBody op) <> None) by (rewrite E; exact (add_bodies_some names (rt_body r) None b _ Hb Hs)).
  unfold body_at in C. destruct (op_requestBody op) as [content|] eqn:E1; [|now elim C].
  destruct (mlookup (b_contentType b) content) as [m|] eqn:E2; [|now elim C].
  destruct (C22_no_other_body _ _ _ _ _ _ _ _ _ _ _ _ _ G HN Hg Hr D E1 E2) as (b' & s' & I & S1 & S2 & ->).
  exists content, b', s'. auto 10.
Qed.
Print Assumptions C22_one_described.

Definition C22_good := mkRoute "" "" 0 "POST" "/" [] [] [form_field "a"; mkBody "" (field_of_type "string") "application/json" false false false true] [] "" "" [] [].
Example C22_nontrivial :
  exists d names op content, generated plain_orders [] cfg [C22_good] [] [] d names /\ documents d C22_good op /\
    op_requestBody op = Some content /\ map fst content = ["application/json"; "application/x-www-form-urlencoded"].
Proof.
  do 4 eexists. split; [eexists; vm_compute; reflexivity|].
  split; [split; [|split]; [eexists; split; vm_compute; reflexivity|reflexivity|reflexivity]|].
  split; reflexivity.
Qed.

(** C23: the list is sorted by name, and every named (unbound) parameter is in it. *)
Theorem C23_sorted : forall o custom config routes components names0 d names path method op,
  valid_orders o -> generated o custom config routes components names0 d names ->
  operation_at d path method op -> name_sorted (op_parameters op).
Proof.
  intros o custom config routes components names0 d names path method op Hv G Ho.
  destruct (operation_at_route _ _ _ _ _ _ _ _ _ _ _ G Ho) as (i & r & _ & _ & ->).
  unfold op_at, operationOf. cbn [op_parameters]. apply Hv.
Qed.
Print Assumptions C23_sorted.

Theorem C23_parameters_documented : forall o custom config routes components names0 d names r op,
  valid_orders o -> generated o custom config routes components names0 d names ->
  distinct_routes routes -> (forall r, In r routes -> gin_path (rt_path r)) ->
  In r routes -> documents d r op ->
  (forall p, In p (rt_pathParams r) -> unbound p -> In (p_name p, "path", p_isRequired p) (entries op)) /\
  (forall p, In p (rt_reqHeaders r) -> unbound p -> In (p_name p, "header", p_isRequired p) (entries op)) /\
  (forall p, In p (rt_queryParams r) -> unbound p -> In (p_name p, "query", p_isRequired p) (entries op)).
Proof.
  intros o custom config routes components names0 d names r op Hv G HN Hg Hr [Ho _].
  destruct (documents_op_at _ _ _ _ _ _ _ _ _ _ G HN Hg Hr Ho) as (j & ->).
  unfold entries, op_at, operationOf. cbn [op_parameters].
  set (l := (_ ++ _ ++ _)%list). destruct Hv as (_ & _ & _ & _ & Hs). destruct (Hs ["route"; itoa (Z.of_nat j)] l) as [HP _].
  assert (Hin : forall e, In e (map entry l) -> In e (map entry (o_sort o ["route"; itoa (Z.of_nat j)] l))).
  { intros e. apply Permutation_in, Permutation_map, HP. }
  unfold l in Hin. repeat split; intros p Hp Hu; apply Hin; rewrite !map_app, !in_app_iff.
  - left. now apply simple_params_in.
  - right; left. now apply simple_params_in.
  - right; right. now apply query_params_in.
Qed.
Print Assumptions C23_parameters_documented.

(** "Nothing else" fails for bound parameters: a bound header struct becomes one header parameter
    without a name ... *)
Definition C23_bad := mkRoute "" "" 0 "GET" "/" [] [] [] [] "" "" [mkParam "" (named_field "m/p" "A") false false false true] [].
Theorem C23_nothing_else_refuted :
  exists r components d names op, parsed_components components /\
    generated plain_orders [] cfg [r] components [] d names /\ documents d r op /\
    exists q, In q (op_parameters op) /\ pa_name q = "".
Proof.
  exists C23_bad, [scomp "m/p" "A" [tfield "string" "X" "header:""x"""]]. do 3 eexists.
  split; [intros c [<-|[]]; parse_fields|].
  split; [eexists; vm_compute; reflexivity|].
  split; [split; [|split]; [eexists; split; vm_compute; reflexivity|reflexivity|reflexivity]|].
  eexists. split; [simpl; left; reflexivity|reflexivity].
Qed.
Print Assumptions C23_nothing_else_refuted.

(** ... and a query struct with an embedded struct loses all its parameters. *)
Definition C23_bad2 := mkRoute "" "" 0 "GET" "/" [] [mkParam "" (named_field "m/p" "T") false false false true] [] [] "" "" [] [].
Theorem C23_bound_query_refuted :
  exists r components d names op, parsed_components components /\
    (exists c k f, In c components /\ In (k, f) (f_structFields c) /\ f_isEmbedded f = false /\
       exists b, has_binding "form" f b /\ bt_notShown b = false) /\
    generated plain_orders [] cfg [r] components [] d names /\ documents d r op /\ op_parameters op = [].
Proof.
  exists C23_bad2, [scomp "m/p" "Base" [tfield "string" "X" ""];
                    scomp "m/p" "T" [efield "m/p" "Base"; tfield "string" "Y" "form:""y"""]]. do 3 eexists.
  split; [intros c [<-|[<-|[]]]; parse_fields|].
  split.
  { do 3 eexists. split; [simpl; right; left; reflexivity|]. split; [simpl; right; left; reflexivity|].
    split; [reflexivity|]. eexists. split; [split; [left; reflexivity|discriminate]|reflexivity]. }
  split; [eexists; vm_compute; reflexivity|].
  split; [split; [|split]; [eexists; split; vm_compute; reflexivity|reflexivity|reflexivity]|reflexivity].
Qed.
Print Assumptions C23_bound_query_refuted.

(** Proved: without bound parameters the list is exactly the route's parameters. *)
Theorem C23_exact_partial : forall o custom config routes components names0 d names r op,
  valid_orders o -> generated o custom config routes components names0 d names ->
  distinct_routes routes -> (forall r, In r routes -> gin_path (rt_path r)) ->
  In r routes -> documents d r op ->
  Forall unbound (rt_pathParams r) -> Forall unbound (rt_reqHeaders r) -> Forall unbound (rt_queryParams r) ->
  Permutation (expected_entries r) (entries op).
Proof.
  intros o custom config routes components names0 d names r op Hv G HN Hg Hr [Ho _] H1 H2 H3.
  destruct (documents_op_at _ _ _ _ _ _ _ _ _ _ G HN Hg Hr Ho) as (j & ->).
  unfold entries, op_at, operationOf. cbn [op_parameters].
  set (l := (_ ++ _ ++ _)%list). destruct Hv as (_ & _ & _ & _ & Hs). destruct (Hs ["route"; itoa (Z.of_nat j)] l) as [HP _].
  change (fun q => (pa_name q, pa_in q, pa_required q)) with entry.
  eapply Permutation_trans; [|apply Permutation_map, HP].
  unfold l, expected_entries. rewrite !map_app, !simple_params_exact, query_params_exact; auto.
Qed.
Print Assumptions C23_exact_partial.

Definition C23_good := mkRoute "" "" 0 "GET" "/u/:z" [mkParam "z" (field_of_type "string") true false false false]
  [mkParam "b" (field_of_type "string") false true false false; mkParam "a" (field_of_type "string") false false true false] [] [] "" ""
  [mkParam "X-H" (field_of_type "string") false false false false] [].
Example C23_nontrivial :
  Forall unbound (rt_pathParams C23_good) /\ Forall unbound (rt_reqHeaders C23_good) /\ Forall unbound (rt_queryParams C23_good) /\
  exists d names op, generated plain_orders [] cfg [C23_good] [] [] d names /\ documents d C23_good op /\
    entries op = [("X-H", "header", false); ("a", "query", false); ("b", "query", false); ("z", "path", true)].
Proof.
  repeat (split; [repeat constructor|]). do 3 eexists. split; [eexists; vm_compute; reflexivity|].
  split; [split; [|split]; [eexists; split; vm_compute; reflexivity|reflexivity|reflexivity]|reflexivity].
Qed.

(** C24: a struct has a schema under a tag exactly when all its non-embedded fields are bound ... *)
Theorem C24_schema_exists : forall custom o names t site c,
  valid_orders o -> map_bindings (f_structFields c) ->
  typeMapping custom (f_name c) (f_package c) = None -> f_type c = "struct" ->
  (componentToSchema (typeMapping custom) o names t site c <> None <-> all_bound t (f_structFields c)).
Proof.
  intros custom o names t site c Ho Hm Ht Hs. rewrite (component_schema_iff custom o names t site c Ho Hm).
  unfold describable. rewrite Ht, Hs. intuition congruence.
Qed.
Print Assumptions C24_schema_exists.

(** ... its properties are only names of fields that are shown ... *)
Theorem C24_hidden_never_leak : forall custom o names t site c s n,
  valid_orders o -> map_bindings (f_structFields c) ->
  (forall k f, In (k, f) (f_structFields c) -> map_bindings (f_structFields f)) ->
  typeMapping custom (f_name c) (f_package c) = None -> f_type c = "struct" ->
  componentToSchema (typeMapping custom) o names t site c = Some s ->
  In n (property_names s) -> shown t (f_structFields c) n.
Proof.
  intros custom o names t site c s n Ho Hm Hm2 Ht Hs E Hin.
  apply (properties_spec custom o names t site c s Ho Hm Hm2 Ht Hs E) in Hin as (k & f & b & ? & ? & ? & ? & ? & _).
  exists k, f, b. auto.
Qed.
Print Assumptions C24_hidden_never_leak.

(** ... but not all of them: a field of an anonymous struct type that is not bound is left out. *)
Definition C24_bad := scomp "m/p" "T" [tfield "string" "A" "json:""a""";
  ("B", mkField "" "struct" "" [] false false "" "" 0 "" "" "" [tfield "string" "X" "xml:""x"""] (fst (ParseStructTag "B" "json:""b""")) [] "")].
Theorem C24_visible_shown_refuted :
  exists c s n, map_bindings (f_structFields c) /\ f_type c = "struct" /\ shown "json" (f_structFields c) n /\
    componentToSchema (typeMapping []) plain_orders [] "json" [] c = Some s /\ ~ In n (property_names s).
Proof.
  exists C24_bad, (objectSchema [("a", typeSchema "string" "")]), "b".
  split.
  { apply parsed_map_bindings. intros k f Hin. destruct Hin as [[= <- <-]|[[= <- <-]|[]]].
    - exists "A", "json:""a""". split; [discriminate|apply Permutation_refl].
    - exists "B", "json:""b""". split; [discriminate|apply Permutation_refl]. }
  split; [reflexivity|]. split.
  { eexists "B", _, _. split; [simpl; right; left; reflexivity|]. split; [reflexivity|].
    split; [left; split; [left; reflexivity|discriminate]|]. split; reflexivity. }
  split; [vm_compute; reflexivity|]. intros [H|[]]. discriminate.
Qed.
Print Assumptions C24_visible_shown_refuted.

(** Proved: if the anonymous structs among the fields are bound too, the properties are exactly
    the shown names. *)
Theorem C24_properties_exact_partial : forall custom o names t site c s,
  valid_orders o -> map_bindings (f_structFields c) ->
  (forall k f, In (k, f) (f_structFields c) -> map_bindings (f_structFields f) /\
     (f_type f = "struct" -> all_bound t (f_structFields f))) ->
  typeMapping custom (f_name c) (f_package c) = None -> f_type c = "struct" ->
  componentToSchema (typeMapping custom) o names t site c = Some s ->
  forall n, In n (property_names s) <-> shown t (f_structFields c) n.
Proof.
  intros custom o names t site c s Ho Hm Hm2 Ht Hs E n.
  rewrite (properties_spec custom o names t site c s Ho Hm (fun k f H => proj1 (Hm2 k f H)) Ht Hs E).
  split.
  - intros (k & f & b & ? & ? & ? & ? & ? & _). exists k, f, b. auto.
  - intros (k & f & b & Hin & ? & ? & ? & ?). exists k, f, b. repeat split; auto.
    destruct (string_dec (f_type f) "struct") as [Ef|Ef].
    + right; right. exact (proj2 (Hm2 k f Hin) Ef).
    + right; left; auto.
Qed.
Print Assumptions C24_properties_exact_partial.

Definition C24_good := scomp "m/p" "T" [efield "m/p" "Base"; tfield "string" "A" "json:""a"""; tfield "string" "H" "json:""-"""; tfield "int" "C" ""].
Example C24_nontrivial :
  map_bindings (f_structFields C24_good) /\
  exists s, componentToSchema (typeMapping []) plain_orders [("m/p.Base", "p.Base")] "json" [] C24_good = Some s /\
    property_names s = ["C"; "a"] /\ List.length (s_allOf s) = 2.
Proof.
  split; [apply parsed_map_bindings; simpl; parse_fields|].
  eexists. split; [vm_compute; reflexivity|]. split; reflexivity.
Qed.

(** C25, full claim: each lookup answers by the mappings given before it.  False: mappings given
    after the first lookup are ignored. *)
Theorem C25_mappings_refuted :
  exists ops, runMappings [] None ops <> mapping_answers [] ops.
Proof.
  exists [AskMapping "T" "p"; GiveMapping "p.T" (mkTF "string" ""); AskMapping "T" "p"]. vm_compute. discriminate.
Qed.
Print Assumptions C25_mappings_refuted.

(** Proved: if all mappings are given before the first lookup, as astra.New does, each answer is the
    user's last mapping for the type, else the predefined one, else none, whatever was looked up before. *)
Theorem C25_mappings_partial : forall gives asks,
  forallb (fun op => negb (is_ask op)) gives = true -> forallb is_ask asks = true ->
  runMappings [] None (gives ++ asks) = mapping_answers [] (gives ++ asks).
Proof. intros gives asks. apply gives_then_asks. reflexivity. Qed.
Print Assumptions C25_mappings_partial.

(** The answer used throughout a generation run is the one of an unchanged memo. *)
Theorem C25_memo_transparent : forall custom memo key pkg,
  memo = None \/ memo = snd (GetTypeMapping custom None "" "") ->
  fst (GetTypeMapping custom memo key pkg) = typeMapping custom key pkg.
Proof. intros. now apply get_type_mapping_any. Qed.
Print Assumptions C25_memo_transparent.

Example C25_nontrivial :
  runMappings [] None [GiveMapping "p.T" (mkTF "string" "x"); GiveMapping "string" (mkTF "integer" ""); GiveMapping "p.T" (mkTF "string" "y");
                       AskMapping "T" "p"; AskMapping "string" "q"; AskMapping "Time" "time"; AskMapping "U" "p"]
  = [Some (mkTF "string" "y"); Some (mkTF "integer" ""); Some (mkTF "string" "date-time"); None].
Proof. reflexivity. Qed.

(** C26 *)
Theorem C26_info_and_server : forall o custom cf routes components names0 d names,
  generated o custom (Some cf) routes components names0 d names ->
  d_servers d = [(if c_secure cf then "https" else "http") ++ "://" ++ c_host cf ++ ":" ++ itoa (c_port cf) ++ c_basePath cf] /\
  d_title d = c_title cf /\ d_version d = c_version cf /\ d_contact d = c_contact cf /\ d_license d = c_license cf /\
  (c_description cf <> "" -> d_description d = c_description cf) /\
  (c_description cf = "" -> d_description d = "Generated by astra").
Proof.
  intros o custom cf routes components names0 d names [c' E]. unfold buildDocument in E.
  destruct (makeCollisionSafeNames o components names0); cbn [bind] in E; try discriminate.
  injection E as <- _ _. cbn. repeat split; auto.
  - intros H. now rewrite (proj2 (String.eqb_neq _ _) H).
  - intros ->. reflexivity.
Qed.
Print Assumptions C26_info_and_server.

Theorem C26_refused_without_config : forall o custom routes components names0,
  exists e, buildDocument o custom None routes components names0 = Err e.
Proof. intros. eexists. reflexivity. Qed.
Print Assumptions C26_refused_without_config.

(** Generating changes at most an empty description of the configuration. *)
Theorem C26_config_kept : forall o custom cf routes components names0 d cf' names,
  buildDocument o custom (Some cf) routes components names0 = Ok (d, cf', names) ->
  (c_description cf <> "" -> cf' = cf) /\
  c_title cf' = c_title cf /\ c_version cf' = c_version cf /\ c_contact cf' = c_contact cf /\ c_license cf' = c_license cf /\
  c_secure cf' = c_secure cf /\ c_host cf' = c_host cf /\ c_basePath cf' = c_basePath cf /\ c_port cf' = c_port cf.
Proof.
  intros o custom cf routes components names0 d cf' names E. unfold buildDocument in E.
  destruct (makeCollisionSafeNames o components names0); cbn [bind] in E; try discriminate.
  injection E as _ <- _. cbn. repeat split; auto.
  intros H. rewrite (proj2 (String.eqb_neq _ _) H). destruct cf; reflexivity.
Qed.
Print Assumptions C26_config_kept.

Example C26_nontrivial : exists d names,
  generated plain_orders [] (Some (mkConfig "t" "" "1" ("", "", "") ("", "") true "h" "/api" 8000)) [] [] [] d names /\
  d_servers d = ["https://h:8000/api"].
Proof. do 2 eexists. split; [eexists; vm_compute; reflexivity|reflexivity]. Qed.
