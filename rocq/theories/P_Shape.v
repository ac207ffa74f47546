(** Proofs: schemas have the shape of the values they describe. *)
From Coq Require Import List String Ascii Bool ZArith Arith Lia Permutation Sorted.
From Verif Require Import BaseStr BaseMap M_Types M_Paths S_Paths P_Paths M_Tags S_Tags P_Tags S_Collect
  M_OpenAPI S_Names P_Names S_OpenAPI P_OpenAPI P_Schema M_TypeTrav S_TypeTrav P_TypeTrav P_Fields S_More P_More.
Import ListNotations.
Local Open Scope string_scope.

(** The name of a component for a binding tag. *)
Definition name_in (names : list (string * string)) (t : string) (p n : string) : option string :=
  makeComponentRefName names t n p.

Section Shape.
  Context (env : TypeEnv) (names : list (string * string)) (t : string).
  Let name := name_in names t.

  Lemma describes_enum e s sh : describes name s sh -> describes name (set_enum e s) sh.
  Proof. intros H. inversion H; subst; econstructor; eauto. Qed.

  (** What the element of a field is: a built-in type or a component. *)
  Inductive elem_shape : string -> string -> shape -> Prop :=
  | es_basic b sh p : In (b, sh) basic_shapes -> b <> "byte" -> b <> "rune" -> elem_shape b p sh
  | es_named n p : ~ In n AcceptedTypes -> n <> "array" -> has_char "." n = false -> name p n <> None ->
      elem_shape n p (JNamed p n).

  Lemma plain_elem ty : plain_type env name ty ->
    exists n p sh, elem_of env ty n p /\ elem_shape n p sh /\ json_shape env ty sh.
  Proof.
    induction 1 as [b k Hb H1 H2|id p Hp Hn Ha Hd Hc|e H IH].
    - apply in_map_iff in Hb as ([b' sh] & <- & Hb). exists b', "", sh. split; [|split].
      + constructor. simpl in Hb. cbn [fst]. simpl. intuition congruence.
      + constructor; auto.
      + now constructor.
    - exists (te_name env id), p, (JNamed p (te_name env id)). split; [|split]; [now constructor|now apply es_named|now constructor].
    - destruct IH as (n & p & sh & A & B & C). exists n, p, sh. repeat split; auto; now constructor.
  Qed.

  Lemma basic_type b sh : In (b, sh) basic_shapes -> b <> "byte" -> b <> "rune" -> forall f,
    IsAcceptedType b = true /\ describes name (typeSchema (s_type (mapPredefinedTypeFormat b)) f) sh /\
    describes name (mapPredefinedTypeFormat b) sh /\
    (String.eqb b "slice" || String.eqb b "map" || String.eqb b "struct" || String.eqb b "array") = false.
  Proof.
    intros H N1 N2 f. cbn [basic_shapes In] in H.
    repeat (destruct H as [H|H]; [injection H as <- <-; first [congruence|
      split; [reflexivity|]; split; [constructor; reflexivity|]; split; [constructor; reflexivity|reflexivity]]|]).
    destruct H.
  Qed.

  Lemma named_ref n p : name p n <> None ->
    exists c, makeComponentRef names t n p = Some ("#/components/schemas/" ++ c) /\ name p n = Some c.
  Proof.
    unfold name, name_in, makeComponentRef. intros H.
    destruct (makeComponentRefName names t n p) as [c|]; [eauto|congruence].
  Qed.

  Lemma not_predefined n : ~ In n AcceptedTypes -> has_char "." n = false ->
    mapPredefinedTypeFormat n = emptySchema /\ IsAcceptedType n = false /\
    (String.eqb n "slice" || String.eqb n "map" || String.eqb n "struct") = false.
  Proof.
    intros Hn Hd. split; [|split].
    - unfold mapPredefinedTypeFormat. destruct (mlookup n PredefinedTypeMap) as [tf|] eqn:El; [|auto].
      exfalso. apply mlookup_In in El. cbn [PredefinedTypeMap In] in El.
      repeat (destruct El as [El|El]; [injection El as <- <-; first [discriminate Hd|apply Hn; simpl; tauto]|]). destruct El.
    - now apply accepted_false.
    - destruct (String.eqb n "slice") eqn:E1; [apply String.eqb_eq in E1; subst; exfalso; apply Hn; simpl; tauto|].
      destruct (String.eqb n "map") eqn:E2; [apply String.eqb_eq in E2; subst; exfalso; apply Hn; simpl; tauto|].
      destruct (String.eqb n "struct") eqn:E3; [apply String.eqb_eq in E3; subst; exfalso; apply Hn; simpl; tauto|].
      reflexivity.
  Qed.

  (** The schema of an element, in a component. *)
  Lemma element_describes n p sh : elem_shape n p sh -> describes name (elementSchema names t n p) sh.
  Proof.
    unfold elementSchema. intros [b sh' q Hb N1 N2|m q Hn Ha Hd Hc].
    - destruct (basic_type _ _ Hb N1 N2 "") as (E & _ & D & _). rewrite E, andb_false_r. exact D.
    - destruct (named_ref _ _ Hc) as (c & E & Ec). destruct (not_predefined _ Hn Hd) as (-> & -> & _). rewrite E.
      apply ds_named with c; auto.
  Qed.

  Lemma elem_not_word n p sh : elem_shape n p sh ->
    String.eqb n "slice" = false /\ String.eqb n "map" = false /\ String.eqb n "struct" = false /\ String.eqb n "array" = false.
  Proof.
    intros [b sh' q Hb N1 N2|m q Hn Ha Hd Hc].
    - destruct (basic_type _ _ Hb N1 N2 "") as (_ & _ & _ & W). rewrite !orb_false_iff in W. tauto.
    - destruct (not_predefined _ Hn Hd) as (_ & _ & W). rewrite !orb_false_iff in W.
      apply String.eqb_neq in Ha. tauto.
  Qed.

  (** The schema of a value, in a response or body. *)
  Lemma field_describes fuel add pkg l r ty :
    flat_type env name false ty -> TypeResult fuel env add pkg "" ty = (l, Ok r) ->
    exists sh s, json_shape env ty sh /\ mapFieldToSchema names t (ParseResultToField r) = Some s /\
      describes name s sh.
  Proof.
    intros [ty' H|ty' H B|n ty' A H|k kn kp ty' Hk H] E.
    - destruct (plain_elem _ H) as (n & p & sh & He & Hs & J). rewrite (field_value _ _ _ _ _ _ _ _ _ He E).
      exists sh. unfold mapFieldToSchema. cbn [f_type f_package].
      destruct (elem_not_word _ _ _ Hs) as (W1 & W2 & _ & _). rewrite W1, W2.
      inversion Hs as [b sh' q Hb N1 N2|m q Hn Ha Hd Hc]; subst.
      + destruct (basic_type _ _ Hb N1 N2 "") as (-> & _ & D & _). cbn [negb]. eauto.
      + destruct (named_ref _ _ Hc) as (c & Ec & En). destruct (not_predefined _ Hn Hd) as (_ & -> & _).
        cbn [negb]. rewrite Ec. eexists. split; [exact J|]. split; [reflexivity|]. apply ds_named with c; auto.
    - destruct (plain_elem _ H) as (n & p & sh & He & Hs & J). rewrite (field_slice _ _ _ _ _ _ _ _ _ He E).
      exists (JArray sh). unfold mapFieldToSchema. cbn [f_type f_package f_sliceType].
      eexists. split; [now constructor|]. split; [reflexivity|].
      eapply ds_array; [reflexivity|reflexivity|reflexivity|].
      inversion Hs as [b sh' q Hb N1 N2|m q Hn Ha Hd Hc]; subst.
      + destruct (basic_type _ _ Hb N1 N2 "") as (-> & D & _ & _). exact D.
      + destruct (named_ref _ _ Hc) as (c & Ec & En). destruct (not_predefined _ Hn Hd) as (_ & -> & _).
        cbn [negb]. rewrite Ec. apply ds_named with c; auto.
    - discriminate.
    - destruct (plain_elem _ H) as (n & p & sh & He & Hs & J). rewrite (field_map _ _ _ _ _ _ _ _ _ _ _ _ Hk He E).
      exists (JObject sh). unfold mapFieldToSchema. cbn [f_type f_package f_mapValueType].
      eexists. split; [now constructor|]. split; [reflexivity|].
      eapply ds_object; [reflexivity|reflexivity|reflexivity|].
      inversion Hs as [b sh' q Hb N1 N2|m q Hn Ha Hd Hc]; subst.
      + destruct (basic_type _ _ Hb N1 N2 "") as (-> & _ & D & _). exact D.
      + destruct (named_ref _ _ Hc) as (c & Ec & En). destruct (not_predefined _ Hn Hd) as (_ & -> & _).
        cbn [negb]. rewrite Ec. apply ds_named with c; auto.
  Qed.

  (** The schema of a field, in a component: [x] is like the field of the type, up to its tags. *)
  Lemma property_describes custom o site fuel add pkg l r ty x :
    (forall p, typeMapping custom "" p = None) ->
    flat_type env name true ty -> TypeResult fuel env add pkg "" ty = (l, Ok r) ->
    (let y := ParseResultToField r in
     f_package x = f_package y /\ f_type x = f_type y /\ f_name x = f_name y /\ f_enum x = f_enum y /\
     f_sliceType x = f_sliceType y /\ f_arrayType x = f_arrayType y /\ f_mapValueType x = f_mapValueType y) ->
    exists sh s, json_shape env ty sh /\ componentToSchema (typeMapping custom) o names t site x = Some s /\
      describes name s sh.
  Proof.
    intros Ht Hfl E Hx. rewrite component_to_schema_eq. cbv zeta in Hx.
    destruct Hx as (-> & -> & -> & -> & -> & -> & ->).
    destruct Hfl as [ty' H|ty' H B|n ty' A H|k kn kp ty' Hk H].
    - destruct (plain_elem _ H) as (n & p & sh & He & Hs & J). rewrite (field_value _ _ _ _ _ _ _ _ _ He E).
      exists sh. cbn [f_name f_type f_package f_enum]. rewrite Ht.
      destruct (elem_not_word _ _ _ Hs) as (W1 & W2 & W3 & W4). rewrite W1, W2, W3, W4.
      inversion Hs as [b sh' q Hb N1 N2|m q Hn Ha Hd Hc]; subst; cbv zeta.
      + destruct (basic_type _ _ Hb N1 N2 "") as (E1 & _ & D & _). rewrite E1, andb_false_r.
        eexists. split; [exact J|]. split; [reflexivity|]. now apply describes_enum.
      + destruct (named_ref _ _ Hc) as (c & Ec & En). destruct (not_predefined _ Hn Hd) as (-> & -> & _).
        cbn [negb s_type emptySchema]. rewrite Ec. eexists. split; [exact J|]. split; [reflexivity|]. apply ds_named with c; auto.
    - destruct (plain_elem _ H) as (n & p & sh & He & Hs & J). rewrite (field_slice _ _ _ _ _ _ _ _ _ He E).
      exists (JArray sh). cbn [f_name f_type f_package f_sliceType]. rewrite Ht.
      eexists. split; [now constructor|]. split; [reflexivity|].
      eapply ds_array; [reflexivity|reflexivity|reflexivity|]. now apply element_describes.
    - destruct (plain_elem _ H) as (m & p & sh & He & Hs & J). destruct (field_array _ _ _ _ _ _ _ _ _ _ He E) as (q & -> & Hq).
      exists (JArray sh). cbn [f_name f_type f_package f_arrayType]. rewrite Ht.
      eexists. split; [now constructor|]. split; [reflexivity|].
      eapply ds_array; [reflexivity|reflexivity|reflexivity|].
      inversion Hs as [b sh' q' Hb N1 N2|m' q' Hn Ha Hd Hc]; subst.
      + apply element_describes. now constructor.
      + rewrite Hq by auto. now apply element_describes.
    - destruct (plain_elem _ H) as (n & p & sh & He & Hs & J). rewrite (field_map _ _ _ _ _ _ _ _ _ _ _ _ Hk He E).
      exists (JObject sh). cbn [f_name f_type f_package f_mapValueType]. rewrite Ht.
      eexists. split; [now constructor|]. split; [reflexivity|].
      eapply ds_object; [reflexivity|reflexivity|reflexivity|]. now apply element_describes.
  Qed.
End Shape.

(** ** The properties of a struct *)
Lemma fold_minsert_unique (l : list (string * Schema)) n v :
  In (n, v) l -> (forall v', In (n, v') l -> v' = v) ->
  mlookup n (fold_left (fun m kv => minsert (fst kv) (snd kv) m) l []) = Some v.
Proof.
  intros H U. rewrite fold_minsert_lookup. cbn [mlookup].
  destruct (mlookup n (rev l)) as [v'|] eqn:E.
  - apply mlookup_In in E. apply in_rev in E. now rewrite (U _ E).
  - exfalso. assert (K : exists v', mlookup n (rev l) = Some v').
    { apply mlookup_Some_key. unfold mkeys. rewrite map_rev, <- in_rev. apply (in_map fst) in H. exact H. }
    destruct K. congruence.
Qed.

Lemma property_schema tm o names t site c s k x b sc :
  valid_orders o -> map_bindings (f_structFields c) -> tm (f_name c) (f_package c) = None -> f_type c = "struct" ->
  componentToSchema tm o names t site c = Some s ->
  In (k, x) (f_structFields c) -> f_isEmbedded x = false -> binds t x b -> bt_notShown b = false ->
  componentToSchema tm o names t (k :: site) x = Some sc ->
  (forall k' x' b', In (k', x') (f_structFields c) -> f_isEmbedded x' = false -> binds t x' b' ->
     bt_notShown b' = false -> bt_name b' = bt_name b -> k' = k /\ x' = x) ->
  In (bt_name b, sc) (all_props s).
Proof.
  intros Ho Hm Ht Hs E Hkx Ee Hb Hn Ec U. pose proof Ho as (_ & Hf & _).
  rewrite component_to_schema_eq, Ht, Hs in E. cbn in E. rewrite struct_loop_eq in E.
  set (es := o_fields o site (Field * option Schema) (field_entries tm o names t site (f_structFields c))) in *.
  destruct (forallb _ es); [|discriminate]. cbn [app] in E.
  assert (L : mlookup (bt_name b) (fold_left (fun m kv => minsert (fst kv) (snd kv) m) (flat_map (shown_entry t) es) []) = Some sc).
  { apply fold_minsert_unique.
    - apply in_flat_map. exists (x, Some sc). split.
      + apply (Permutation_in _ (Hf site _ _)). rewrite <- Ec.
        exact (in_map (fun kf => (snd kf, componentToSchema tm o names t (fst kf :: site) (snd kf))) _ _ Hkx).
      + apply field_binding_spec in Hb; [|eapply Hm; eauto]. unfold shown_entry. cbn [fst snd]. rewrite Ee, Hb, Hn. left; auto.
    - intros v' Hin. apply in_flat_map in Hin as (e & He & Hin).
      apply (Permutation_in _ (Permutation_sym (Hf site _ _))) in He.
      apply in_map_iff in He as ([k' f'] & <- & Hkf). unfold shown_entry in Hin. cbn [fst snd] in Hin.
      destruct (f_isEmbedded f') eqn:Ee'; [destruct Hin|].
      destruct (fieldBindingOf t f') as [b'|] eqn:Eb'; [|destruct Hin].
      destruct (bt_notShown b') eqn:En'; [destruct Hin|]. cbn [negb] in Hin.
      destruct (componentToSchema tm o names t (k' :: site) f') eqn:Ec'; [|destruct Hin].
      destruct Hin as [Hin|[]]. injection Hin as En <-.
      apply field_binding_spec in Eb'; [|eapply Hm; eauto].
      destruct (U _ _ _ Hkf Ee' Eb' En' En) as [-> ->]. congruence. }
  apply mlookup_In in L. unfold finishStruct in E. revert L E.
  generalize (fold_left (fun m kv => minsert (fst kv) (snd kv) m) (flat_map (shown_entry t) es) []). intros m L E.
  unfold all_props. apply in_app_iff.
  destruct m as [|kv m]; [destruct L|].
  destruct (flat_map (embedded_entry names t) es) as [|e l]; injection E as <-.
  - left. exact L.
  - right. apply in_flat_map. exists (mkSchema "" "" "" 0 [] [] None (kv :: m) None "").
    split; [|exact L]. cbn [s_allOf]. right. apply in_app_iff. right. left. reflexivity.
Qed.

(** The entry of a source field has its bindings. *)
Lemma source_binding t f x b : gf_name f <> "" ->
  f_bindingTags x = fst (ParseStructTag (gf_name f) (gf_tag f)) -> (binds t x b <-> source_binds t f b).
Proof.
  intros Hn Hx. unfold binds, source_binds, has_binding. rewrite Hx. cbv zeta.
  assert (NZ : forall t b, In (t, b) (fst (ParseStructTag (gf_name f) (gf_tag f))) -> b <> bt_zero).
  { intros. eapply parse_tag_nonzero; eauto. }
  split.
  - intros [[H _]|[H1 [H2 _]]]; [auto|]. right. split; auto. intros H. apply in_map_iff in H as ([t' b'] & <- & H).
    apply (H1 b'). split; auto. eapply NZ; eauto.
  - intros [H|[H1 H2]]; [left; split; eauto|]. right. split; [|split; eauto].
    intros b' [H _]. apply H1. apply (in_map fst) in H. exact H.
Qed.

Lemma struct_type n env add pkg name fs l r :
  TypeResult n env add pkg name (GStruct fs) = (l, Ok r) -> f_type (ParseResultToField r) = "struct".
Proof.
  intros E. destruct n as [|n]; [discriminate|]. cbn [TypeResult] in E. wsplit.
  apply finish_ok in O. destruct O as [-> _]. rewrite parse_eq. destruct (String.eqb name ""); reflexivity.
Qed.

Lemma Forall2_in_l {A B} (R : A -> B -> Prop) l l' x : Forall2 R l l' -> In x l -> exists y, In y l' /\ R x y.
Proof.
  induction 1 as [|a b l l' H HF IH]; intros Hin; [destruct Hin|].
  destruct Hin as [->|Hin]; [exists b; simpl; auto|]. destruct (IH Hin) as (y & ? & ?). exists y; simpl; auto.
Qed.
Lemma Forall2_in_r {A B} (R : A -> B -> Prop) l l' y : Forall2 R l l' -> In y l' -> exists x, In x l /\ R x y.
Proof.
  induction 1 as [|a b l l' H HF IH]; intros Hin; [destruct Hin|].
  destruct Hin as [->|Hin]; [exists a; simpl; auto|]. destruct (IH Hin) as (z & ? & ?). exists z; simpl; auto.
Qed.

Lemma struct_property env names t custom o site n add pkg name fs l r f b s :
  valid_orders o -> (forall p, typeMapping custom "" p = None) ->
  TypeResult n env add pkg name (GStruct fs) = (l, Ok r) ->
  (forall g, In g fs -> gf_name g <> "") -> NoDup (map gf_name fs) ->
  typeMapping custom (f_name (ParseResultToField r)) (f_package (ParseResultToField r)) = None ->
  In f fs -> own_property t f b -> flat_type env (name_in names t) true (gf_type f) ->
  (forall g b', In g fs -> own_property t g b' -> bt_name b' = bt_name b -> g = f) ->
  componentToSchema (typeMapping custom) o names t site (ParseResultToField r) = Some s ->
  exists sh ps, json_shape env (gf_type f) sh /\ In (bt_name b, ps) (all_props s) /\ describes (name_in names t) ps sh.
Proof.
  intros Ho Hu E Hne HN Ht Hf (X & Em & Sb & Sn) Hfl U Es.
  destruct (struct_entries _ _ _ _ _ _ _ _ E) as (kvs & Ef & F2).
  (* every entry comes from a source field *)
  assert (FR : forall k x, In (k, x) (f_structFields (ParseResultToField r)) ->
    exists g r1 r', In g fs /\ gf_exported g = true /\ k = gf_name g /\
      (exists m l1, TypeResult m env add pkg "" (gf_type g) = (l1, Ok r1)) /\ field_doc g r1 = Ok r' /\
      x = ParseResultToField (res_with_tags (gf_embedded g) (fst (ParseStructTag (gf_name g) (gf_tag g)))
                                (snd (ParseStructTag (gf_name g) (gf_tag g))) r') /\ In (k, x) (map (fun kv => (fst kv, ParseResultToField (snd kv))) kvs)).
  { intros k x H. rewrite Ef in H. pose proof H as H0. apply in_map_iff in H as ((k' & r0) & Hx & H). injection Hx as <- <-.
    destruct (Forall2_in_r _ _ _ _ F2 H) as (g & Hg & l1 & r1 & r' & m & A & B & C).
    apply filter_In in Hg as [Hg Xg]. injection C as -> ->. exists g, r1, r'. repeat split; eauto. }
  assert (Hin : In f (filter gf_exported fs)) by (apply filter_In; auto).
  destruct (Forall2_in_l _ _ _ _ F2 Hin) as ((k & r0) & Hk & l1 & r1 & r' & m & A & B & C). injection C as -> ->.
  set (x := ParseResultToField (res_with_tags (gf_embedded f) (fst (ParseStructTag (gf_name f) (gf_tag f)))
                                (snd (ParseStructTag (gf_name f) (gf_tag f))) r')).
  assert (Hkx : In (gf_name f, x) (f_structFields (ParseResultToField r))).
  { rewrite Ef. apply in_map_iff. eexists. split; [|exact Hk]. reflexivity. }
  assert (Hm : map_bindings (f_structFields (ParseResultToField r))).
  { intros k x' H. destruct (FR _ _ H) as (g & r2 & r2' & _ & _ & _ & _ & _ & -> & _).
    rewrite parse_eq. cbn [f_bindingTags res_with_tags q_bindingTags]. apply parse_tag_keys. }
  assert (Hx : let y := ParseResultToField r1 in
     f_package x = f_package y /\ f_type x = f_type y /\ f_name x = f_name y /\ f_enum x = f_enum y /\
     f_sliceType x = f_sliceType y /\ f_arrayType x = f_arrayType y /\ f_mapValueType x = f_mapValueType y).
  { destruct (field_doc_tags _ _ _ B) as [D1 D2]. injection D1 as D1a D1b D1c D1d D1e D1f. injection D2 as D2a D2b D2c D2d D2e.
    unfold x. cbv zeta. rewrite !(parse_eq r1), !(parse_eq (res_with_tags _ _ _ _)).
    cbn [f_package f_type f_name f_enum f_sliceType f_arrayType f_mapValueType
         res_with_tags q_type q_name q_enum q_sliceType q_arrayType q_arrayLength q_package q_mapValueType].
    unfold needs_package. cbn [res_with_tags q_type q_name q_sliceType q_arrayType q_mapValueType q_mapKeyType].
    rewrite D1a, D1b, D1c, D1d, D1e, D2a, ?D2c, D2d. repeat split. }
  destruct (property_describes env names t custom o (gf_name f :: site) m add pkg l1 r1 (gf_type f) x Hu Hfl A Hx)
    as (sh & ps & J & Ec & D).
  exists sh, ps. split; [exact J|]. split; [|exact D].
  assert (Hbx : forall (g : gfield gtype) r2', f_bindingTags (ParseResultToField (res_with_tags (gf_embedded g) (fst (ParseStructTag (gf_name g) (gf_tag g)))
                                (snd (ParseStructTag (gf_name g) (gf_tag g))) r2')) = fst (ParseStructTag (gf_name g) (gf_tag g))).
  { intros. rewrite parse_eq. reflexivity. }
  assert (Hex : forall (g : gfield gtype) r2', f_isEmbedded (ParseResultToField (res_with_tags (gf_embedded g) (fst (ParseStructTag (gf_name g) (gf_tag g)))
                                (snd (ParseStructTag (gf_name g) (gf_tag g))) r2')) = gf_embedded g).
  { intros. rewrite parse_eq. reflexivity. }
  apply (property_schema (typeMapping custom) o names t site (ParseResultToField r) s (gf_name f) x b ps); auto.
  - eapply struct_type; eauto.
  - apply (source_binding t f x b); auto.
  - intros k' x' b' Hkx' Ee' Hb' Hn' Hbn'.
    destruct (FR _ _ Hkx') as (g & r2 & r2' & Hg & Xg & Ek & _ & _ & Ex & Hin').
    assert (g = f).
    { apply (U g b' Hg); auto. split; auto. rewrite Ex, Hex in Ee'. split; auto. split; auto.
      apply (source_binding t g x' b'); auto. rewrite Ex. apply Hbx. }
    subst g. split; auto.
    (* the same source field has one entry *)
    clear - HN Hkx Hkx' Ek Ef F2. rewrite Ef in Hkx, Hkx'. subst k'.
    assert (ND : NoDup (map fst (map (fun kv => (fst kv, ParseResultToField (snd kv))) kvs))).
    { rewrite map_map. cbn [fst]. assert (E : map (fun kv : string * Result => fst kv) kvs = map gf_name (filter gf_exported fs)).
      { clear - F2. induction F2 as [|g kv gs kvs (l1 & r1 & r' & m & _ & _ & ->) F IH]; [reflexivity|]. cbn. now rewrite IH. }
      rewrite E. clear - HN. induction fs as [|g gs IH]; [constructor|]. inversion HN; subst. cbn [filter].
      destruct (gf_exported g); auto. cbn [map]. constructor; auto.
      intros H. apply H1. apply in_map_iff in H as (h & <- & H). apply filter_In in H. apply in_map_iff. exists h. tauto. }
    apply (In_mlookup _ _ _ ND) in Hkx. apply (In_mlookup _ _ _ ND) in Hkx'. congruence.
Qed.
