(** Proofs of further properties of tags, documents and struct fields. *)
From Coq Require Import List String Ascii Bool ZArith Arith Lia Permutation Sorted.
From Verif Require Import BaseStr BaseMap M_Types M_Paths S_Paths P_Paths M_Tags S_Tags P_Tags S_Collect
  M_OpenAPI S_Names P_Names S_OpenAPI P_OpenAPI P_Schema M_TypeTrav S_TypeTrav P_TypeTrav P_Fields M_Value S_More.
Import ListNotations.
Local Open Scope string_scope.

(** ** Quoting and unquoting *)
Lemma unquote_quoted_byte c f t :
  unquote_body (S f) (quote_byte c ++ t) = cons_opt (str1 c) (unquote_body f t).
Proof. destruct c as [[] [] [] [] [] [] [] []]; reflexivity. Qed.

Lemma quote_byte_len c t : String.length (quote_byte c ++ t) = S (String.length (quote_byte c) - 1 + String.length t).
Proof. destruct c as [[] [] [] [] [] [] [] []]; reflexivity. Qed.

Lemma unquote_quote_fuel s : forall fuel, String.length (quote_body s) <= fuel ->
  unquote_body fuel (quote_body s) = Some s.
Proof.
  induction s as [|c s IH]; intros fuel L; cbn [quote_body] in *.
  - destruct fuel; reflexivity.
  - rewrite quote_byte_len in L. destruct fuel as [|fuel]; [lia|].
    rewrite unquote_quoted_byte, IH by lia. reflexivity.
Qed.

Lemma unquote_quote s : unquote (quote_body s) = Some s.
Proof. apply unquote_quote_fuel. lia. Qed.

Lemma quoted_byte c t : quoted_text t -> quoted_text (quote_byte c ++ t).
Proof.
  destruct c as [[] [] [] [] [] [] [] []]; intros H;
    repeat first [exact H | apply qt_esc | apply qt_char; [discriminate|discriminate|]].
Qed.

Lemma quoted_quote s : quoted_text (quote_body s).
Proof. induction s as [|c s IH]; cbn [quote_body]; [constructor|now apply quoted_byte]. Qed.

(** ** Options and rules *)
Lemma append_right_comma a b : has_char "," a = false -> forall c d, has_char "," c = false ->
  a ++ "," ++ b = c ++ "," ++ d -> a = c /\ b = d.
Proof.
  induction a as [|x a IH]; intros Ha [|y c] d Hc E; cbn in *.
  - injection E as ->. auto.
  - injection E as <- E. discriminate.
  - injection E as -> E. discriminate.
  - injection E as -> E. apply orb_false_iff in Ha, Hc. destruct Ha, Hc.
    destruct (IH H0 _ _ H2 E). subst. auto.
Qed.

Lemma second_item v x : has_char "," x = false ->
  (match split "," v with _ :: y :: _ => String.eqb y x | _ => false end = true <-> first_option v x).
Proof.
  intros Hx. unfold first_option. pose proof (join_split "," v) as J. pose proof (split_no_char "," v) as F.
  split.
  - destruct (split "," v) as [|a [|y l]] eqn:E; try discriminate. intros Ey. apply String.eqb_eq in Ey. subst y.
    inversion F as [|? ? Ha F']; subst. exists a. split; auto.
    destruct l as [|z l].
    + left. reflexivity.
    + right. exists (join (str1 ",") (z :: l)). reflexivity.
  - intros (a & Ha & [->|(r & ->)]).
    + change (a ++ "," ++ x) with (a ++ String "," x). rewrite split_app_sep by auto.
      rewrite split_no_sep by auto. apply String.eqb_refl.
    + change (a ++ "," ++ x ++ "," ++ r) with (a ++ String "," (x ++ String "," r)).
      rewrite split_app_sep by auto. rewrite split_app_sep by auto. apply String.eqb_refl.
Qed.

Lemma not_required field v : bt_returnOptional (newBindingTag field v) = true <-> first_option v "omitempty".
Proof.
  rewrite <- second_item by reflexivity. unfold newBindingTag.
  destruct (String.eqb (hd "" (split "," v)) ""); [reflexivity|].
  destruct (negb _); reflexivity.
Qed.

Lemma validations_in tag types t fl :
  In (t, fl) (parseValidations tag types) <->
  In t types /\ exists v, tag_has tag t v /\ v <> "" /\ fl = contains "required" v.
Proof.
  induction types as [|x l IH]; cbn [parseValidations].
  - split; [intros []|intros [[] _]].
  - assert (HV : forall v, v <> "" -> (TagGet tag x = v <-> tag_has tag x v)).
    { intros v Hv. unfold TagGet. rewrite <- lookup_spec. destruct (Lookup tag x); split; intros E; congruence. }
    destruct (String.eqb (TagGet tag x) "") eqn:E.
    + apply String.eqb_eq in E. rewrite IH. split.
      * intros [H1 H2]. split; [right; auto|auto].
      * intros [[->|H] (v & Hv & Hn & Hf)]; [|split; eauto].
        exfalso. apply HV in Hv; auto. congruence.
    + apply String.eqb_neq in E. cbn [In]. rewrite IH. split.
      * intros [[= <- <-]|[H1 H2]].
        -- split; auto. exists (TagGet tag x). split; [apply HV; auto|auto].
        -- split; auto.
      * intros [[->|H] (v & Hv & Hn & Hf)]; [|right; split; eauto].
        left. apply HV in Hv; auto. subst. reflexivity.
Qed.

Lemma rule_contained v x : has_rule v x -> contains x v = true.
Proof. intros (a & b & -> & _). apply contains_spec. eauto. Qed.

(** ** Response headers *)
Lemma headers_of names ps : forall hs,
  Forall unbound ps ->
  (forall n, In n (mkeys (fold_left (addHeader names) ps hs)) <-> In n (mkeys hs) \/ In n (map p_name ps)) /\
  (forall n h, mlookup n (fold_left (addHeader names) ps hs) = Some h ->
     mlookup n hs = Some h \/
     exists p, In p ps /\ p_name p = n /\ h_required h = p_isRequired p /\
       mapParamToSchema names HeaderBindingTag p = Some (h_schema h)).
Proof.
  induction ps as [|p ps IH]; intros hs HF; cbn [fold_left map].
  - split; [intros n; simpl; tauto|auto].
  - inversion HF as [|? ? Hp HF']; subst. destruct (IH (addHeader names hs p) HF') as [H1 H2].
    unfold addHeader in H1, H2 |- *. destruct (unbound_schema names HeaderBindingTag p Hp) as (s & Es).
    rewrite Es in *. split.
    + intros n. rewrite H1, minsert_keys. simpl. intuition.
    + intros n h E. destruct (H2 _ _ E) as [E'|(q & Hq & Hr)].
      * rewrite mlookup_insert in E'. destruct (String.eqb (p_name p) n) eqn:En; [|auto].
        injection E' as <-. apply String.eqb_eq in En. right. exists p. simpl. auto.
      * right. exists q. simpl. tauto.
Qed.

(** ** Query parameters *)
Definition style_ok (q : OParam) : Prop :=
  if String.eqb (pa_in q) "query"
  then (pa_style q, pa_explode q) = if String.eqb (s_type (pa_schema q)) "object" then ("deepObject", true) else ("form", false)
  else (pa_style q, pa_explode q) = ("", false).

Lemma simple_style names t place ps q : place <> "query" -> In q (simpleParams names t place ps) ->
  style_ok q /\ pa_in q = place.
Proof.
  intros Hp H. apply in_flat_map in H as (p & _ & H). destruct (mapParamToSchema names t p) as [s|]; [|destruct H].
  destruct H as [<-|[]]. unfold style_ok. cbn. apply String.eqb_neq in Hp. rewrite Hp. auto.
Qed.

Lemma query_style tm o names comps site p q : In q (queryParam tm o names comps site p) ->
  style_ok q /\ pa_in q = "query" /\ pa_required q = p_isRequired p.
Proof.
  unfold queryParam. destruct (mapParamToSchema names FormBindingTag p) as [s|]; [|intros []].
  destruct (p_isBound p).
  - destruct (findComponentByPackageAndType _ _ _) as [c|]; [|intros []].
    destruct (componentToSchema _ _ _ _ _ _) as [cs|]; [|intros []].
    intros H. apply in_map_iff in H as ([n sc] & <- & _). cbn.
    unfold getQueryParamStyle, style_ok. destruct (String.eqb (s_type sc) "object") eqn:E; cbn; rewrite E; auto.
  - intros H. unfold getQueryParamStyle in H. unfold style_ok.
    destruct (String.eqb (s_type s) "object") eqn:E; destruct H as [<-|[]]; cbn; rewrite E; auto.
Qed.

Lemma query_params_of tm o names comps site ps : forall i q, In q (queryParams tm o names comps site i ps) ->
  exists p j, In p ps /\ In q (queryParam tm o names comps (itoa (Z.of_nat j) :: site) p).
Proof.
  induction ps as [|p ps IH]; intros i q H; cbn [queryParams] in H; [destruct H|].
  apply in_app_iff in H as [H|H].
  - exists p, i. simpl. auto.
  - destruct (IH _ _ H) as (p' & j & Hp & Hq). exists p', j. simpl. auto.
Qed.

Lemma query_params_all tm o names comps site ps p : forall i, In p ps ->
  exists j, forall q, In q (queryParam tm o names comps (itoa (Z.of_nat j) :: site) p) ->
    In q (queryParams tm o names comps site i ps).
Proof.
  induction ps as [|p' ps IH]; intros i H; [destruct H|]. cbn [queryParams].
  destruct H as [->|H].
  - exists i. intros q Hq. apply in_app_iff. auto.
  - destruct (IH (S i) H) as (j & Hj). exists j. intros q Hq. apply in_app_iff. auto.
Qed.

(** The properties of a struct's schema are shown fields. *)
Lemma props_shown tm o names t site c s n sc :
  valid_orders o -> map_bindings (f_structFields c) ->
  componentToSchema tm o names t site c = Some s -> In (n, sc) (s_props s) ->
  shown t (f_structFields c) n.
Proof.
  intros (_ & Hf & _) Hm E Hin. rewrite component_to_schema_eq in E.
  destruct (tm (f_name c) (f_package c)) as [tf|].
  { injection E as <-. unfold mapTypeFormat in Hin. destruct (tm _ _) as [tf'|]; [destruct (String.eqb _ _)|]; destruct Hin. }
  destruct (String.eqb (f_type c) "struct").
  2:{ cbv zeta in E; repeat match type of E with context [if ?b then _ else _] => destruct b end;
      try match type of E with context [makeComponentRef ?a ?b ?c ?d] => destruct (makeComponentRef a b c d) end; injection E as <-; cbn in Hin; try (destruct Hin);
      unfold mapPredefinedTypeFormat in Hin; destruct (mlookup _ _) as [tf'|]; try destruct (String.eqb _ _); destruct Hin. }
  rewrite struct_loop_eq in E. destruct (forallb _ _); [|discriminate]. cbn [app] in E.
  set (es := o_fields o site (Field * option Schema) (field_entries tm o names t site (f_structFields c))) in *.
  assert (Hp : In n (map fst (flat_map (shown_entry t) es))).
  { rewrite <- mof_keys.
    remember (fold_left (fun m kv => minsert (fst kv) (snd kv) m) (flat_map (shown_entry t) es) []) as m eqn:Em. clear Em.
    unfold finishStruct in E. destruct (flat_map (embedded_entry names t) es).
    - destruct m; injection E as <-; apply (in_map fst) in Hin; exact Hin.
    - destruct m; injection E as <-; destruct Hin. }
  apply in_map_iff in Hp as ([n' x] & <- & Hp). apply in_flat_map in Hp as (e & He & Hp).
  apply (Permutation_in _ (Permutation_sym (Hf site _ _))) in He.
  apply in_map_iff in He as ([k f] & <- & Hkf). unfold shown_entry in Hp. cbn [fst snd] in Hp.
  destruct (f_isEmbedded f) eqn:Ee; [destruct Hp|].
  destruct (fieldBindingOf t f) as [b|] eqn:Eb; [|destruct Hp].
  destruct (bt_notShown b) eqn:En; [destruct Hp|]. cbn [negb] in Hp.
  destruct (componentToSchema _ _ _ _ _ f); [|destruct Hp]. destruct Hp as [Hp|[]]. injection Hp as <- <-.
  exists k, f, b. repeat split; auto. apply field_binding_spec; eauto.
Qed.

(** Conversely, if nothing is embedded and everything is bound, each shown field is a property. *)
Lemma shown_props custom o names t site c s n :
  valid_orders o -> map_bindings (f_structFields c) ->
  (forall k f, In (k, f) (f_structFields c) -> f_isEmbedded f = false /\ map_bindings (f_structFields f) /\
     (f_type f = "struct" -> all_bound t (f_structFields f))) ->
  typeMapping custom (f_name c) (f_package c) = None -> f_type c = "struct" ->
  componentToSchema (typeMapping custom) o names t site c = Some s ->
  shown t (f_structFields c) n -> In n (map fst (s_props s)).
Proof.
  intros Ho Hm Hm2 Ht Hs E (k & f & b & Hkf & Ee & Hb & Hn & <-).
  assert (Hd : describable custom t f).
  { destruct (string_dec (f_type f) "struct") as [Ef|Ef]; [|right; left; auto].
    right; right. destruct (Hm2 k f Hkf) as (_ & _ & H). auto. }
  pose proof Ho as (_ & Hf & _).
  assert (P : In (bt_name b) (property_names s)).
  { apply (properties_spec custom o names t site c s Ho Hm); auto.
    - intros k' f' H. apply (Hm2 k' f' H).
    - exists k, f, b. repeat split; auto. }
  rewrite component_to_schema_eq, Ht, Hs in E. cbn in E. rewrite struct_loop_eq in E.
  destruct (forallb _ _); [|discriminate]. cbn [app] in E.
  assert (El : flat_map (embedded_entry names t) (o_fields o site (Field * option Schema)
            (field_entries (typeMapping custom) o names t site (f_structFields c))) = []).
  { assert (A : forall e, In e (o_fields o site (Field * option Schema)
            (field_entries (typeMapping custom) o names t site (f_structFields c))) -> embedded_entry names t e = []).
    { intros e He. apply (Permutation_in _ (Permutation_sym (Hf site _ _))) in He.
      apply in_map_iff in He as ([k' f'] & <- & Hkf'). unfold embedded_entry. cbn [fst snd].
      destruct (Hm2 k' f' Hkf') as (-> & _). reflexivity. }
    revert A. generalize (o_fields o site (Field * option Schema) (field_entries (typeMapping custom) o names t site (f_structFields c))).
    intros l A. induction l as [|e l IH]; [reflexivity|]. cbn [flat_map]. rewrite (A e) by (simpl; auto).
    apply IH. intros; apply A; simpl; auto. }
  rewrite El in E. unfold finishStruct in E.
  assert (Ea : s_allOf s = []).
  { destruct (fold_left _ _ _); injection E as <-; reflexivity. }
  unfold property_names in P. rewrite Ea in P. cbn [flat_map] in P. now rewrite app_nil_r in P.
Qed.

Lemma find_component comps pkg n c :
  findComponentByPackageAndType comps pkg n = Some c -> In c comps /\ f_package c = pkg /\ f_name c = n.
Proof.
  unfold findComponentByPackageAndType. intros H. apply find_some in H as [H E].
  apply andb_true_iff in E as [E1 E2]. apply String.eqb_eq in E1, E2. auto.
Qed.

(** ** Descriptions *)
Lemma component_no_desc tm o names t site c s : componentToSchema tm o names t site c = Some s -> s_desc s = "".
Proof.
  intros E. rewrite component_to_schema_eq in E.
  destruct (tm (f_name c) (f_package c)) as [tf|].
  { injection E as <-. unfold mapTypeFormat. destruct (tm _ _) as [tf'|]; [destruct (String.eqb _ _)|]; reflexivity. }
  destruct (String.eqb (f_type c) "struct").
  - destruct (structLoop _ _ _ _ _) as [[p e]|]; [|discriminate]. destruct p, e; injection E as <-; reflexivity.
  - cbv zeta in E; repeat match type of E with context [if ?b then _ else _] => destruct b end;
      try match type of E with context [makeComponentRef ?a ?b ?c ?d] => destruct (makeComponentRef a b c d) end; injection E as <-; cbn; try reflexivity;
      unfold mapPredefinedTypeFormat; destruct (mlookup _ _) as [tf'|]; try destruct (String.eqb _ _); reflexivity.
Qed.

Definition named_schema names (n : string) (c : Field) (bt : string) : Prop :=
  In bt BindingTags /\ makeComponentRefName names bt (f_name c) (f_package c) = Some n.

Lemma schemas_from tm o names (n : string) (s : Schema) cs : forall schemas,
  In (n, s) (fold_left (fun acc c => fold_left (fun acc' bt => addSchema tm o names acc' c bt) BindingTags acc) cs schemas) ->
  In (n, s) schemas \/
  exists c bt site s', In c cs /\ named_schema names n c bt /\ componentToSchema tm o names bt site c = Some s' /\
    s_desc s = f_doc c /\ set_desc "" s = s'.
Proof.
  assert (H1 : forall c bt schemas, In bt BindingTags -> In (n, s) (addSchema tm o names schemas c bt) ->
    In (n, s) schemas \/ exists bt site s', named_schema names n c bt /\
      componentToSchema tm o names bt site c = Some s' /\ s_desc s = f_doc c /\ set_desc "" s = s').
  { intros c bt schemas Hb. unfold addSchema.
    destruct (componentToSchema _ _ _ _ _ _) as [s'|] eqn:E; auto.
    destruct (makeComponentRefName _ _ _ _) as [n'|] eqn:En; auto. intros Hin.
    apply minsert_in in Hin as [Hin|Hin]; auto. injection Hin as <- ->. right.
    exists bt, ["component"; f_package c; f_name c; bt], s'. split; [split; auto|]. split; auto.
    assert (D := component_no_desc _ _ _ _ _ _ _ E).
    destruct (String.eqb (f_doc c) "") eqn:Ed; cbn [negb].
    - apply String.eqb_eq in Ed. split; [congruence|]. clear - D; destruct s'; cbn in D |- *; subst; reflexivity.
    - split; [reflexivity|]. clear - D; destruct s'; cbn in D |- *; subst; reflexivity. }
  assert (H2 : forall c l schemas, incl l BindingTags ->
    In (n, s) (fold_left (fun acc' bt => addSchema tm o names acc' c bt) l schemas) ->
    In (n, s) schemas \/ exists bt site s', named_schema names n c bt /\
      componentToSchema tm o names bt site c = Some s' /\ s_desc s = f_doc c /\ set_desc "" s = s').
  { intros c l. induction l as [|bt l IH]; intros schemas Hl H; cbn [fold_left] in H; auto.
    destruct (IH (addSchema tm o names schemas c bt)) as [H'|H']; auto.
    - intros x Hx. apply Hl. right. exact Hx.
    - apply H1 in H'; auto. apply Hl. left. reflexivity. }
  induction cs as [|c cs IH]; intros schemas H; cbn [fold_left] in H; auto.
  destruct (IH _ H) as [H'|(c' & bt & site & s' & Hc & H')].
  - apply H2 in H'; [|apply incl_refl]. destruct H' as [H'|(bt & site & s' & H')]; auto.
    right. exists c, bt, site, s'. simpl. tauto.
  - right. exists c', bt, site, s'. simpl. tauto.
Qed.

(** ** The entries for struct fields *)
Lemma field_doc_tags f r r' : field_doc f r = Ok r' ->
  (q_type r', q_name r', q_enum r', q_sliceType r', q_arrayType r', q_arrayLength r') =
  (q_type r, q_name r, q_enum r, q_sliceType r, q_arrayType r, q_arrayLength r) /\
  (q_package r', q_mapKeyPackage r', q_mapKeyType r', q_mapValueType r', q_structFields r') =
  (q_package r, q_mapKeyPackage r, q_mapKeyType r, q_mapValueType r, q_structFields r).
Proof.
  unfold field_doc. destruct (q_package r) as [p|] eqn:Ep; [|intros [= <-]; rewrite Ep; auto].
  destruct (gf_at f p) as [[[|nm nms] d|]|]; try discriminate; intros [= <-]; destruct r; cbn in *; subst; auto.
Qed.

Lemma struct_entries n env add pkg name fs l r :
  TypeResult n env add pkg name (GStruct fs) = (l, Ok r) ->
  exists kvs,
  f_structFields (ParseResultToField r) = map (fun kv => (fst kv, ParseResultToField (snd kv))) kvs /\
  Forall2 (fun f kv => exists l1 r r' m, TypeResult m env add pkg "" (gf_type f) = (l1, Ok r) /\ field_doc f r = Ok r' /\
             kv = (gf_name f, res_with_tags (gf_embedded f) (fst (ParseStructTag (gf_name f) (gf_tag f)))
                                            (snd (ParseStructTag (gf_name f) (gf_tag f))) r'))
          (filter gf_exported fs) kvs.
Proof.
  intros E. destruct n as [|n]; [discriminate|]. cbn [TypeResult] in E. wsplit.
  apply struct_fields_entries in W. apply finish_ok in O. destruct O as [-> _].
  exists a. split.
  - rewrite parse_eq. cbn [f_structFields]. destruct (String.eqb name ""); reflexivity.
  - clear - W. induction W as [|f kv gs kvs (l1 & r1 & r' & H) W IH]; constructor; auto.
    exists l1, r1, r', n. exact H.
Qed.

(** ** Enum values *)
Lemma enum_in_schema custom o names t site c s :
  typeMapping custom (f_name c) (f_package c) = None ->
  In (f_type c) (map fst basic_shapes) ->
  componentToSchema (typeMapping custom) o names t site c = Some s -> s_enum s = f_enum c.
Proof.
  intros Ht Hb E. rewrite component_to_schema_eq, Ht in E.
  cbn [map fst basic_shapes] in Hb. cbn [In] in Hb.
  repeat (destruct Hb as [Hb|Hb]; [rewrite <- Hb in E; vm_compute in E; injection E as <-; reflexivity|]).
  destruct Hb.
Qed.
