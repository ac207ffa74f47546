(** C65: the schemas behind a response or a body are those of its content type, at every depth. *)
From Coq Require Import List String Ascii Bool ZArith Arith Lia Permutation Sorted.
From Verif Require Import BaseStr BaseMap M_Types M_Paths S_Paths M_Tags S_Tags S_Collect M_OpenAPI S_Names P_Names S_OpenAPI P_OpenAPI
  P_Schema S_More S_Refs P_Refs Props_Names Props_OpenAPI.
Import ListNotations.
Local Open Scope string_scope.

Definition pfield (pkg typ name tag : string) : string * Field :=
  (name, mkField pkg typ "" [] false false "" "" 0 "" "" "" [] (fst (ParseStructTag name tag)) [] "").
Definition sfield (pkg elem name tag : string) : string * Field :=
  (name, mkField pkg "slice" "" [] false false elem "" 0 "" "" "" [] (fst (ParseStructTag name tag)) [] "").
Definition json_route (typ : string) : Route :=
  mkRoute "" "" 0 "GET" "/" [] [] [] [mkRet 200 "application/json" (named_field "m/p" typ)] "" "" [] [].
Definition response_at (d : Document) (r : Route) (status ct : string) (s : Schema) : Prop :=
  exists op resp, S_OpenAPI.documents d r op /\ mlookup status (op_responses op) = Some resp /\ mlookup ct (resp_content resp) = Some s.

(** ** Refuted *)


Lemma unfolds_fails custom components d t n pkg typ s c name sch :
  In c components -> f_package c = pkg -> f_name c = typ -> typeMapping custom typ pkg = None ->
  s_ref s = "#/components/schemas/" ++ name -> mlookup name (d_schemas d) = Some sch ->
  ~ fits components t (unfolds custom components d t n) c sch -> ~ unfolds custom components d t (S n) pkg typ s.
Proof.
  intros Hc P N T R L F U. destruct (U c Hc P N) as (name' & sch' & R' & L' & M). rewrite T in M.
  rewrite R in R'. apply append_inj_l in R'. subst name'. rewrite L in L'. injection L' as <-. auto.
Qed.
Lemma fits_property components t (leaf : string -> string -> Schema -> Prop) f s : fits components t leaf f s -> f_type f = "struct" ->
  forall k g b, In (k, g) (f_structFields f) -> f_isEmbedded g = false -> binds t g b -> bt_notShown b = false ->
    exists p, In (bt_name b, p) (all_props s) /\ fits components t leaf g p.
Proof.
  intros H E. destruct H as [f s _ _ _ _ HP _|f s i E'|f s i E'|f s i E'|f s _ NC|f s (_ & NC)]; auto; try congruence;
    exfalso; apply NC; rewrite E; unfold compound; simpl; tauto.
Qed.
Lemma fits_name components t (leaf : string -> string -> Schema -> Prop) f s : fits components t leaf f s -> named_type (f_type f) ->
  leaf (f_package f) (f_type f) s.
Proof.
  intros H (NA & NC). unfold compound in NC.
  destruct H as [f s E|f s i E|f s i E|f s i E|f s A|f s]; auto; try contradiction; exfalso; apply NC; rewrite E; unfold compound; simpl; tauto.
Qed.
Lemma fits_elements components t (leaf : string -> string -> Schema -> Prop) f s : fits components t leaf f s -> f_type f = "slice" ->
  exists i, s_items s = Some i /\ element leaf (f_package f) (f_sliceType f) i.
Proof.
  intros H E. destruct H as [f s E'|f s i _ _ _ I X|f s i E'|f s i E'|f s _ NC|f s (_ & NC)]; try congruence; eauto;
    exfalso; apply NC; rewrite E; unfold compound; simpl; tauto.
Qed.
Lemma built_parsed fields :
  (forall kf, In kf fields -> fst kf <> "" /\ exists tag, f_bindingTags (snd kf) = fst (ParseStructTag (fst kf) tag)) -> parsed_fields fields.
Proof. intros H k f Hin. destruct (H _ Hin) as (N & tag & E). cbn [fst snd] in *. exists k, tag. rewrite E. auto. Qed.
Ltac parse_all := let c := fresh in let k := fresh in let H := fresh in
  intros c H; repeat (destruct H as [<-|H]; [apply built_parsed; intros k H;
    repeat (destruct H as [<-|H]; [split; [discriminate|eexists; reflexivity]|]); destruct H|]); destruct H.
Ltac respond := eexists _, _; split; [split; [eexists; split; vm_compute; reflexivity|split; reflexivity]|split; vm_compute; reflexivity].

(** Full claim: whatever a route answers with, the schemas behind are those of the content type.  False: a struct without tags
    has one schema, written last for YAML, so that the JSON response loses the type of a field with JSON tags ... *)
Definition C65_untagged := [scomp "m/p" "Inner" [tfield "string" "Y" "json:""y"""]; scomp "m/p" "Outer" [pfield "m/p" "Inner" "I" ""]].
Theorem C65_untagged_refuted :
  exists d names s, parsed_components C65_untagged /\ NoDup (map comp_key C65_untagged) /\
    generated plain_orders [] cfg [json_route "Outer"] C65_untagged [] d names /\ response_at d (json_route "Outer") "200" "application/json" s /\
    ~ value_unfolds [] C65_untagged d "json" 2 (named_field "m/p" "Outer") s.
Proof.
  eexists _, _, _. split; [parse_all|].
  split; [repeat constructor; simpl; intuition discriminate|]. split; [eexists; vm_compute; reflexivity|]. split; [respond|].
  intros (U & _ & _). revert U. intros U. refine (unfolds_fails _ _ _ _ 1 _ _ _ (nth 1 C65_untagged (scomp "" "" [])) "p.Outer" _ _ _ _ _ _ _ _ (U _)); cbn; auto; try reflexivity.
  - intros F.
    destruct (fits_property _ _ _ _ _ F eq_refl "I" (snd (pfield "m/p" "Inner" "I" "")) (mkBT "I" false false)) as (p & Hin & Fp); auto.
    { cbn. auto. }
    { right. split.
      - intros b ([E|[]] & _). discriminate.
      - split; [left; reflexivity|discriminate]. }
    cbn in Hin. destruct Hin as [E|[]]. injection E as <-.
    apply fits_name in Fp; [|split; [cbn; intuition discriminate|cbv; intuition discriminate]].
    destruct (Fp (nth 0 C65_untagged (scomp "" "" [])) (or_introl eq_refl) eq_refl eq_refl) as (nm & _ & R & _). discriminate.
  - intuition discriminate.
Qed.
Print Assumptions C65_untagged_refuted.

(** ... and so does a named slice or map of a type with JSON tags ... *)
Definition C65_list := [scomp "m/p" "Item" [tfield "string" "Y" "json:""y"""];
                        mkField "m/p" "slice" "Items" [] false false "Item" "" 0 "" "" "" [] [] [] ""].
Theorem C65_list_refuted :
  exists d names s, parsed_components C65_list /\ NoDup (map comp_key C65_list) /\
    generated plain_orders [] cfg [json_route "Items"] C65_list [] d names /\ response_at d (json_route "Items") "200" "application/json" s /\
    ~ value_unfolds [] C65_list d "json" 2 (named_field "m/p" "Items") s.
Proof.
  eexists _, _, _. split; [parse_all|].
  split; [repeat constructor; simpl; intuition discriminate|]. split; [eexists; vm_compute; reflexivity|]. split; [respond|].
  intros (U & _ & _). refine (unfolds_fails _ _ _ _ 1 _ _ _ (nth 1 C65_list (scomp "" "" [])) "p.Items" _ _ _ _ _ _ _ _ (U _)); cbn; auto; try reflexivity.
  - intros F. destruct (fits_elements _ _ _ _ _ F eq_refl) as (i & E & _ & El). injection E as <-.
    destruct (El ltac:(cbn; intuition discriminate) (nth 0 C65_list (scomp "" "" [])) (or_introl eq_refl) eq_refl eq_refl) as (nm & _ & R & _). discriminate.
  - intuition discriminate.
Qed.
Print Assumptions C65_list_refuted.

(** ... and a struct whose names are the same in JSON and XML leads, in a JSON response, to the XML names of a field. *)
Definition C65_other := [scomp "m/p" "Inner" [tfield "string" "Y" "json:""y"" xml:""Y"""];
                         scomp "m/p" "Outer" [pfield "m/p" "Inner" "I" "json:""i"" xml:""i"""]].
Theorem C65_other_tag_refuted :
  exists d names s p, parsed_components C65_other /\ NoDup (map comp_key C65_other) /\
    generated plain_orders [] cfg [json_route "Outer"] C65_other [] d names /\ response_at d (json_route "Outer") "200" "application/json" s /\
    s = refSchema "#/components/schemas/p.Outer" /\
    mlookup "p.Outer" (d_schemas d) = Some p /\ s_props p = [("i", refSchema "#/components/schemas/p.xml.Inner")] /\
    ~ value_unfolds [] C65_other d "json" 2 (named_field "m/p" "Outer") s.
Proof.
  eexists _, _, _, _. split; [parse_all|].
  split; [repeat constructor; simpl; intuition discriminate|]. split; [eexists; vm_compute; reflexivity|]. split; [respond|].
  split; [reflexivity|]. split; [vm_compute; reflexivity|]. split; [reflexivity|].
  intros (U & _ & _). refine (unfolds_fails _ _ _ _ 1 _ _ _ (nth 1 C65_other (scomp "" "" [])) "p.Outer" _ _ _ _ _ _ _ _ (U _)); cbn; auto; try reflexivity.
  - intros F.
    destruct (fits_property _ _ _ _ _ F eq_refl "I" (snd (nth 0 (f_structFields (nth 1 C65_other (scomp "" "" []))) ("", scomp "" "" []))) (mkBT "i" false false)) as (p & Hin & Fp); auto.
    { cbn. auto. }
    { left. split; [vm_compute; tauto|discriminate]. }
    cbn in Hin. destruct Hin as [E|[]]. injection E as <-.
    apply fits_name in Fp; [|split; [cbn; intuition discriminate|cbv; intuition discriminate]].
    destruct (Fp (nth 0 C65_other (scomp "" "" [])) (or_introl eq_refl) eq_refl eq_refl) as (nm & sch & R & L & FI).
    cbn in R. injection R as <-. vm_compute in L. injection L as <-. cbn in FI.
    destruct (fits_property _ _ _ _ _ FI eq_refl "Y" (snd (nth 0 (f_structFields (nth 0 C65_other (scomp "" "" []))) ("", scomp "" "" []))) (mkBT "y" false false)) as (p & Hin & _); auto.
    { cbn. auto. }
    { left. split; [vm_compute; tauto|discriminate]. }
    cbn in Hin. destruct Hin as [E|[]]. discriminate.
  - intuition discriminate.
Qed.
Print Assumptions C65_other_tag_refuted.

(** ** Proved *)

(** At every depth, for all iteration orders and custom mappings, if the schema names are distinct (as in C15) and each component
    behind the response is faithful: it has a schema under the tag of the content type, and if one schema stands for several
    tags, then also for each type inside. *)
Theorem C65_responses_partial : forall o custom config routes components d names level r op rt s,
  valid_orders o -> parsed_components components -> separated components level -> plain_names components level ->
  NoDup (map comp_key components) -> generated o custom config routes components [] d names ->
  distinct_routes routes -> (forall r, In r routes -> gin_path (rt_path r)) ->
  In r routes -> documents d r op -> In rt (rt_returns r) ->
  (forall rt', In rt' (rt_returns r) -> r_status rt' = r_status rt -> r_contentType rt' = r_contentType rt -> rt' = rt) ->
  let t := ContentTypeToBindingTag (r_contentType rt) in In t BindingTags ->
  (forall c c', In c components -> value_names (r_field rt) (f_package c) (f_name c) -> behind custom components c c' ->
     faithful custom components t c') ->
  mapFieldToSchema names t (r_field rt) = Some s -> s <> emptySchema ->
  exists resp, mlookup (itoa (r_status rt)) (op_responses op) = Some resp /\
    mlookup (r_contentType rt) (resp_content resp) = Some s /\ forall n, value_unfolds custom components d t n (r_field rt) s.
Proof.
  intros o custom config routes components d names level r op rt s Ho Hp Hs Hpl HN G HD Hg Hr Hop Hrt Hu t Ht HF Es Hne.
  destruct (C21_responses_described_partial _ _ _ _ _ _ _ _ _ _ _ _ G HD Hg Hr Hop Hrt Hu Es Hne) as (resp & A & B).
  exists resp. split; auto. split; auto. intros n. eapply value_fits; eauto.
Qed.
Print Assumptions C65_responses_partial.

Theorem C65_bodies_partial : forall o custom config routes components d names level r op b s,
  valid_orders o -> parsed_components components -> separated components level -> plain_names components level ->
  NoDup (map comp_key components) -> generated o custom config routes components [] d names ->
  distinct_routes routes -> (forall r, In r routes -> gin_path (rt_path r)) ->
  In r routes -> documents d r op -> In b (rt_body r) ->
  (forall b', In b' (rt_body r) -> b_contentType b' = b_contentType b -> b' = b) ->
  let t := ContentTypeToBindingTag (b_contentType b) in In t BindingTags ->
  (forall c c', In c components -> value_names (b_field b) (f_package c) (f_name c) -> behind custom components c c' ->
     faithful custom components t c') ->
  mapFieldToSchema names t (b_field b) = Some s ->
  exists content, op_requestBody op = Some content /\
    mlookup (b_contentType b) content = Some (if String.eqb (b_name b) "" then s else objectSchema [(b_name b, s)]) /\
    forall n, value_unfolds custom components d t n (b_field b) s.
Proof.
  intros o custom config routes components d names level r op b s Ho Hp Hs Hpl HN G HD Hg Hr Hop Hb Hu t Ht HF Es.
  destruct (C22_bodies_described_partial _ _ _ _ _ _ _ _ _ _ _ _ G HD Hg Hr Hop Hb Hu Es) as (content & A & B).
  exists content. split; auto. split; auto. intros n. eapply value_fits; eauto.
Qed.
Print Assumptions C65_bodies_partial.

(** In the plainest programs every component is faithful. *)
Theorem C65_one_tag_partial : forall custom components t,
  In t BindingTags -> (forall c, In c components -> one_tag custom t c) ->
  forall c, In c components -> faithful custom components t c.
Proof.
  intros custom components t Ht HC.
  assert (TN : t <> NoBindingTag) by now apply tag_not_empty.
  assert (HNm : forall c, In c components -> has_name c t).
  { intros c Hc. destruct (HC c Hc) as (_ & _ & [E|(k & g & Hin & Ee)] & HF & _).
    - left. right. split; auto. intros (t' & k & f & b & X & _). rewrite E in X. destruct X.
    - left. left. destruct (HF k g Hin) as (_ & _ & _ & b & _ & B). rewrite Ee in B. exists k, g, b. rewrite B. cbn. auto. }
  assert (HB : forall c k g b, In c components -> In (k, g) (f_structFields c) -> f_isEmbedded g = false ->
            (binds t g b <-> In (t, b) (f_bindingTags g))).
  { intros c k g b Hc Hin Ee. destruct (HC c Hc) as (_ & _ & _ & HF & _). destruct (HF k g Hin) as (_ & _ & _ & b0 & Z & B).
    rewrite Ee in B. unfold binds, has_binding. rewrite B. cbn. split.
    - intros [(X & _)|(_ & X & _)]; auto. destruct X as [X|[]]. injection X as X _. now destruct TN.
    - intros [X|[]]. injection X as <-. left. auto. }
  intros c Hc. destruct (HC c Hc) as (ES & EN & EF & HF & HU).
  split; [now apply HNm|]. split; [|split; [auto|intros HT; split]].
  - right. right. intros k g Hin Ee. destruct (HF k g Hin) as (_ & _ & _ & b & _ & B). exists b. apply (HB c k g b Hc Hin Ee).
    rewrite B, Ee. now left.
  - constructor.
    + intros k g Hin. destruct (HF k g Hin) as (_ & _ & _ & b & _ & B). rewrite B. repeat constructor; auto.
    + intros k g Hin k' g' Hin'. destruct (HF k g Hin) as (X & _). rewrite X in Hin'. destruct Hin'.
    + intros k g b k' g' b' Hin Hin' Ee Ee' B B' _ _ E. apply (HU k g b k' g' b'); auto; eapply HB; eauto.
    + intros k g Hin Ee. destruct (HF k g Hin) as (X & Y & Z & _). split; auto. split; [congruence|].
      constructor; rewrite X; [intros ? ? []|intros ? ? []|intros ? ? ? ? ? ? []|intros ? ? []].
  - intros t' Ht' HD' HNm' HSh.
    destruct EF as [EF|(k & g & Hin & Ee)].
    + constructor; [rewrite EF; intros k g []|]. intros p n c2 X. exfalso. inversion X as [f Y|f Y|f Y|f Y|f k g _ Y|f k g p' n' _ Y]; subst; try congruence.
      * destruct Y as (_ & Y). apply Y. rewrite ES. cbn. auto.
      * rewrite EF in Y. destruct Y.
      * rewrite EF in Y. destruct Y.
    + assert (t' = t).
      { destruct HD' as [HD'|[HD'|HD']]; [congruence|congruence|]. destruct (HD' k g Hin Ee) as (b & B).
        destruct (HF k g Hin) as (_ & _ & _ & b0 & _ & B0). rewrite Ee in B0. unfold binds, has_binding in B. rewrite B0 in B. cbn in B.
        destruct B as [([B|[]] & _)|(_ & [B|[]] & _)]; injection B as B _; [congruence|]. now destruct TN. }
      subst t'. apply alike_refl. auto.
Qed.
Print Assumptions C65_one_tag_partial.

(** A recursive type, an embedded struct and a slice of structs, with JSON tags. *)
Definition C65_ex := [scomp "m/p" "Base" [tfield "int" "ID" "json:""id"""]; scomp "m/p" "Item" [tfield "string" "Y" "json:""y,omitempty"""];
                      scomp "m/p" "Order" [efield "m/p" "Base"; sfield "m/p" "Item" "Items" "json:""items"""; pfield "m/p" "Order" "Next" "json:""next"""]].
Example C65_nontrivial :
  parsed_components C65_ex /\ separated C65_ex (fun _ => 0) /\ plain_names C65_ex (fun _ => 0) /\ NoDup (map comp_key C65_ex) /\
  (forall c, In c C65_ex -> one_tag [] "json" c) /\
  exists d names, generated plain_orders [] cfg [json_route "Order"] C65_ex [] d names /\
    response_at d (json_route "Order") "200" "application/json" (refSchema "#/components/schemas/p.Order") /\
    forall n, value_unfolds [] C65_ex d "json" n (named_field "m/p" "Order") (refSchema "#/components/schemas/p.Order").
Proof.
  assert (P : parsed_components C65_ex) by parse_all.
  assert (S : separated C65_ex (fun _ => 0)).
  { intros c1 c2 H1 H2 _ N. exfalso. apply N. simpl in H1, H2.
    destruct H1 as [<-|[<-|[<-|[]]]], H2 as [<-|[<-|[<-|[]]]]; reflexivity. }
  assert (L : plain_names C65_ex (fun _ => 0)).
  { intros c [<-|[<-|[<-|[]]]]; (split; [reflexivity|]); repeat constructor; try discriminate; simpl; intuition discriminate. }
  assert (N : NoDup (map comp_key C65_ex)) by (repeat constructor; simpl; intuition discriminate).
  assert (O : forall c, In c C65_ex -> one_tag [] "json" c).
  { intros c [<-|[<-|[<-|[]]]]; (split; [reflexivity|]); (split; [simpl; intuition discriminate|]); (split; [right|split]).
    1,4: eexists _, _; split; [left; reflexivity|reflexivity].
    - intros k g [E|[]]; injection E as <- <-; (split; [reflexivity|]); (split; [discriminate|]); (split; [reflexivity|]); eexists; split; [|vm_compute; reflexivity]; discriminate.
    - intros k g b k' g' b' [E|[]] [E'|[]]; injection E as <- <-; injection E' as <- <-; auto.
    - intros k g [E|[]]; injection E as <- <-; (split; [reflexivity|]); (split; [discriminate|]); (split; [reflexivity|]); eexists; split; [|vm_compute; reflexivity]; discriminate.
    - intros k g b k' g' b' [E|[]] [E'|[]]; injection E as <- <-; injection E' as <- <-; auto.
    - eexists _, _; split; [right; left; reflexivity|reflexivity].
    - intros k g [E|[E|[E|[]]]]; injection E as <- <-; (split; [reflexivity|]); (split; [discriminate|]); (split; [reflexivity|]); eexists; split; [|vm_compute; reflexivity| |vm_compute; reflexivity| |vm_compute; reflexivity]; discriminate.
    - intros k g b k' g' b' [E|[E|[E|[]]]] [E'|[E'|[E'|[]]]]; injection E as <- <-; injection E' as <- <-; auto; try discriminate;
        intros _ _ [X|[]] [X'|[]]; injection X as <-; injection X' as <-; discriminate. }
  do 5 (split; auto). eexists _, _.
  split; [eexists; vm_compute; reflexivity|]. split; [respond|]. intros n.
  refine (value_fits plain_orders [] cfg [json_route "Order"] C65_ex _ _ (fun _ => 0) "json" plain_orders_valid P S L N _ _ _ _ _ n _).
  - eexists. vm_compute. reflexivity.
  - simpl. tauto.
  - intros c c' Hc _ B. apply C65_one_tag_partial; auto; [simpl; tauto|]. destruct B; auto.
  - reflexivity.
Qed.
