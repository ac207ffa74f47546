(** Proofs about component schemas: properties, references, iteration order. *)
From Coq Require Import List String Ascii Bool ZArith Arith Lia Permutation Sorted.
From Verif Require Import BaseStr BaseMap M_Types M_Paths S_Paths P_Paths M_Tags S_Tags P_Tags S_Collect
  M_OpenAPI S_Names P_Names S_OpenAPI P_OpenAPI.
Import ListNotations.
Local Open Scope string_scope.

(** ** The binding of a field *)
Lemma bt_get_has t f b :
  NoDup (map fst (f_bindingTags f)) -> b <> bt_zero ->
  (has_binding t f b <-> bt_get t (f_bindingTags f) = b).
Proof.
  intros HN Hb. unfold has_binding, bt_get. split.
  - intros [Hin _]. apply In_mlookup in Hin; auto. now rewrite Hin.
  - intros E. destruct (mlookup t (f_bindingTags f)) eqn:El; [|congruence].
    subst. apply mlookup_In in El. auto.
Qed.

Lemma bt_get_no t f :
  NoDup (map fst (f_bindingTags f)) ->
  ((forall b, ~ has_binding t f b) <-> bt_get t (f_bindingTags f) = bt_zero).
Proof.
  intros HN. split.
  - intros H. destruct (bt_eqb (bt_get t (f_bindingTags f)) bt_zero) eqn:E; [now apply bt_eqb_eq|].
    exfalso. apply (H (bt_get t (f_bindingTags f))). apply bt_get_has; auto.
    intros E'. apply bt_eqb_eq in E'. congruence.
  - intros E b Hb. pose proof Hb as [_ Hz]. apply bt_get_has in Hb; auto. congruence.
Qed.

Lemma field_binding_spec t f b :
  NoDup (map fst (f_bindingTags f)) -> (fieldBindingOf t f = Some b <-> binds t f b).
Proof.
  intros HN. unfold fieldBindingOf, binds.
  destruct (bt_eqb (bt_get t (f_bindingTags f)) bt_zero) eqn:E1; cbn [andb].
  - apply bt_eqb_eq in E1. pose proof (proj2 (bt_get_no t f HN) E1) as Hno.
    destruct (bt_eqb (bt_get NoBindingTag (f_bindingTags f)) bt_zero) eqn:E2.
    + apply bt_eqb_eq in E2. pose proof (proj2 (bt_get_no _ f HN) E2) as Hno2.
      split; [discriminate|]. intros [H|[_ H]]; exfalso; [exact (Hno _ H)|exact (Hno2 _ H)].
    + split.
      * intros [= <-]. right. split; auto. apply bt_get_has; auto. intros E. apply bt_eqb_eq in E. congruence.
      * intros [H|[_ H]]; [exfalso; exact (Hno _ H)|]. f_equal. apply bt_get_has; auto. apply H.
  - assert (Hb : has_binding t f (bt_get t (f_bindingTags f))).
    { apply bt_get_has; auto. intros E. apply bt_eqb_eq in E. congruence. }
    split.
    + intros [= <-]. auto.
    + intros [H|[H _]]; [|exfalso; eapply H; eauto]. f_equal. apply bt_get_has; auto. apply H.
Qed.

Lemma field_binding_none t f :
  NoDup (map fst (f_bindingTags f)) -> (fieldBindingOf t f = None <-> ~ exists b, binds t f b).
Proof.
  intros HN. destruct (fieldBindingOf t f) as [b|] eqn:E.
  - split; [discriminate|]. intros H. exfalso. apply H. exists b. now apply field_binding_spec.
  - split; auto. intros _ [b Hb]. apply field_binding_spec in Hb; auto. congruence.
Qed.

(** ** The loop over struct fields, in closed form *)
Section Loop.
  Context (names : list (string * string)) (t : string).
  Definition bound_entry (e : Field * option Schema) : bool :=
    f_isEmbedded (fst e) || match fieldBindingOf t (fst e) with Some _ => true | None => false end.
  Definition shown_entry (e : Field * option Schema) : list (string * Schema) :=
    if f_isEmbedded (fst e) then []
    else match fieldBindingOf t (fst e) with
         | Some b => if negb (bt_notShown b) then match snd e with Some s => [(bt_name b, s)] | None => [] end else []
         | None => []
         end.
  Definition embedded_entry (e : Field * option Schema) : list Schema :=
    if f_isEmbedded (fst e) then
      match makeComponentRef names t (f_type (fst e)) (f_package (fst e)) with Some r => [refSchema r] | None => [] end
    else [].

  Lemma struct_loop_eq l : forall props emb,
    structLoop names t l props emb =
    if forallb bound_entry l
    then Some (fold_left (fun m kv => minsert (fst kv) (snd kv) m) (flat_map shown_entry l) props,
               (emb ++ flat_map embedded_entry l)%list)
    else None.
  Proof.
    induction l as [|[f s] l IH]; intros props emb; cbn [structLoop forallb flat_map fold_left].
    - now rewrite app_nil_r.
    - unfold bound_entry at 1, shown_entry at 1, embedded_entry at 1. cbn [fst snd].
      destruct (f_isEmbedded f) eqn:Ee; cbn [orb andb app].
      + destruct (makeComponentRef names t (f_type f) (f_package f)); rewrite IH; rewrite <- ?app_assoc; reflexivity.
      + destruct (fieldBindingOf t f) as [b|]; cbn [andb]; [|reflexivity].
        destruct (negb (bt_notShown b)); [destruct s|]; rewrite IH; reflexivity.
  Qed.
End Loop.

Definition field_entries tm o names t site (sf : list (string * Field)) : list (Field * option Schema) :=
  map (fun kf => (snd kf, componentToSchema tm o names t (fst kf :: site) (snd kf))) sf.

Lemma component_to_schema_eq tm o names t site c :
  componentToSchema tm o names t site c =
  match tm (f_name c) (f_package c) with
  | Some _ => Some (mapTypeFormat tm (f_name c) (f_package c))
  | None =>
      if String.eqb (f_type c) "struct" then
        finishStruct (structLoop names t (o_fields o site _ (field_entries tm o names t site (f_structFields c))) [] [])
      else if String.eqb (f_type c) "slice" then
        Some (arraySchema (elementSchema names t (f_sliceType c) (f_package c)) 0)
      else if String.eqb (f_type c) "array" then
        Some (arraySchema (elementSchema names t (f_arrayType c) (f_package c)) (f_arrayLength c))
      else if String.eqb (f_type c) "map" then
        Some (mapSchema (elementSchema names t (f_mapValueType c) (f_package c)))
      else
        let schema := mapPredefinedTypeFormat (f_type c) in
        if String.eqb (s_type schema) "" && negb (IsAcceptedType (f_type c)) then
          match makeComponentRef names t (f_type c) (f_package c) with
          | Some r => Some (refSchema r)
          | None => Some schema
          end
        else Some (set_enum (f_enum c) schema)
  end.
Proof. destruct c as [? ? ? ? ? ? ? ? ? ? ? ? sf ? ? ?]. reflexivity. Qed.

Lemma forallb_perm {A} (f : A -> bool) l l' : Permutation l l' -> forallb f l = forallb f l'.
Proof.
  intros HP. apply eq_iff_eq_true. rewrite !forallb_forall.
  split; intros H x Hx; apply H; (eapply Permutation_in; [|exact Hx]); auto. now symmetry.
Qed.

Lemma flat_map_perm {A B} (f : A -> list B) l l' : Permutation l l' -> Permutation (flat_map f l) (flat_map f l').
Proof.
  induction 1; simpl; auto.
  - now apply Permutation_app_head.
  - rewrite !app_assoc. apply Permutation_app_tail, Permutation_app_comm.
  - etransitivity; eauto.
Qed.

(** When there is a schema at all. *)
Lemma component_schema_iff custom o names t site c :
  valid_orders o -> map_bindings (f_structFields c) ->
  (componentToSchema (typeMapping custom) o names t site c <> None <-> describable custom t c).
Proof.
  intros (_ & Hf & _) Hm. rewrite component_to_schema_eq. unfold describable.
  destruct (typeMapping custom (f_name c) (f_package c)) as [tf|].
  - split; [left; discriminate|discriminate].
  - destruct (String.eqb (f_type c) "struct") eqn:E.
    + apply String.eqb_eq in E.
      rewrite struct_loop_eq.
      rewrite <- (forallb_perm _ _ _ (Hf site _ (field_entries (typeMapping custom) o names t site (f_structFields c)))).
      assert (Hb : forallb (bound_entry t) (field_entries (typeMapping custom) o names t site (f_structFields c)) = true
                   <-> all_bound t (f_structFields c)).
      { rewrite forallb_forall. unfold all_bound, field_entries. split.
        - intros H k f Hin He. specialize (H _ (in_map _ _ _ Hin)). unfold bound_entry in H. cbn [fst snd] in H.
          rewrite He in H. cbn [orb] in H. destruct (fieldBindingOf t f) as [b|] eqn:Eb; [|discriminate].
          exists b. apply field_binding_spec; eauto.
        - intros H e He. apply in_map_iff in He as ([k f] & <- & Hin). unfold bound_entry. cbn [fst snd].
          destruct (f_isEmbedded f) eqn:Ee; auto. destruct (H k f Hin Ee) as [b Hb].
          apply field_binding_spec in Hb; [|eapply Hm; eauto]. now rewrite Hb. }
      destruct (forallb _ _) eqn:Ef.
      * split; [intros _; right; right; now apply Hb|]. intros _. unfold finishStruct.
        destruct (fold_left _ _ _); destruct (app _ _); discriminate.
      * split; [intros H; exfalso; apply H; reflexivity|]. intros [H|[H|H]]; [congruence|congruence|]. apply Hb in H. congruence.
    + apply String.eqb_neq in E. split; [auto|]. intros _.
      repeat match goal with |- context [if ?b then _ else _] => destruct b end;
        try destruct (makeComponentRef _ _ _ _); discriminate.
Qed.

(** ** Properties *)
Lemma mof_keys {V} (l : list (string * V)) n :
  In n (map fst (fold_left (fun m kv => minsert (fst kv) (snd kv) m) l [])) <-> In n (map fst l).
Proof.
  change (map fst (fold_left (fun m kv => minsert (fst kv) (snd kv) m) l [])) with
    (mkeys (fold_left (fun m kv => minsert (fst kv) (snd kv) m) l [])).
  rewrite mlookup_Some_key. rewrite fold_minsert_lookup. cbn [mlookup].
  transitivity (exists v, mlookup n (rev l) = Some v).
  - split; intros [v H]; exists v; destruct (mlookup n (rev l)); auto; discriminate.
  - rewrite <- mlookup_Some_key. unfold mkeys. rewrite map_rev. now rewrite <- in_rev.
Qed.

(** A field whose schema exists, given by its own kind. *)
Lemma properties_spec custom o names t site c s :
  valid_orders o -> map_bindings (f_structFields c) ->
  (forall k f, In (k, f) (f_structFields c) -> map_bindings (f_structFields f)) ->
  typeMapping custom (f_name c) (f_package c) = None -> f_type c = "struct" ->
  componentToSchema (typeMapping custom) o names t site c = Some s ->
  forall n, In n (property_names s) <->
    exists k f b, In (k, f) (f_structFields c) /\ f_isEmbedded f = false /\ binds t f b /\
      bt_notShown b = false /\ bt_name b = n /\ describable custom t f.
Proof.
  intros Ho Hm Hm2 Ht Hs E n. pose proof Ho as (_ & Hf & _).
  rewrite component_to_schema_eq, Ht, Hs in E. cbn in E. rewrite struct_loop_eq in E.
  set (es := o_fields o site (Field * option Schema) (field_entries (typeMapping custom) o names t site (f_structFields c))) in *.
  destruct (forallb _ es); [|discriminate].
  assert (Hk : In n (property_names s) <-> In n (map fst (flat_map (shown_entry t) es))).
  { unfold finishStruct in E. rewrite <- mof_keys.
    remember (fold_left (fun m kv => minsert (fst kv) (snd kv) m) (flat_map (shown_entry t) es) []) as m eqn:Em. clear Em.
    cbn [app] in E.
    assert (He : flat_map (fun x => map fst (s_props x)) (flat_map (embedded_entry names t) es) = []).
    { clear. induction es as [|e es IH]; simpl; auto. rewrite flat_map_app, IH, app_nil_r.
      unfold embedded_entry. destruct (f_isEmbedded (fst e)); auto. destruct (makeComponentRef _ _ _ _); auto. }
    destruct m as [|kv m].
    - destruct (flat_map (embedded_entry names t) es) as [|e l] eqn:El; injection E as <-; unfold property_names; cbn [objectSchema s_props s_allOf map app].
      + reflexivity.
      + rewrite He. reflexivity.
    - destruct (flat_map (embedded_entry names t) es) as [|e l] eqn:El; injection E as <-; unfold property_names; cbn [objectSchema s_props s_allOf map].
      + cbn [flat_map]. rewrite app_nil_r. reflexivity.
      + rewrite app_comm_cons, flat_map_app. rewrite He. simpl. rewrite app_nil_r. reflexivity. }
  rewrite Hk, in_map_iff. split.
  - intros ([n' sc] & <- & Hin). apply in_flat_map in Hin as (e & He & Hin).
    apply (Permutation_in _ (Permutation_sym (Hf site _ _))) in He.
    apply in_map_iff in He as ([k f] & <- & Hkf). unfold shown_entry in Hin. cbn [fst snd] in Hin.
    destruct (f_isEmbedded f) eqn:Ee; [destruct Hin|].
    destruct (fieldBindingOf t f) as [b|] eqn:Eb; [|destruct Hin].
    destruct (bt_notShown b) eqn:En; [destruct Hin|]. cbn [negb] in Hin.
    destruct (componentToSchema (typeMapping custom) o names t (k :: site) f) eqn:Ec; [|destruct Hin].
    destruct Hin as [Hin|[]]. injection Hin as <- <-.
    exists k, f, b. repeat split; auto.
    + apply field_binding_spec; eauto.
    + apply (component_schema_iff custom o names t (k :: site)); eauto. congruence.
  - intros (k & f & b & Hkf & Ee & Hb & Hn & <- & Hd).
    apply field_binding_spec in Hb; [|eapply Hm; eauto].
    apply (component_schema_iff custom o names t (k :: site)) in Hd; eauto.
    destruct (componentToSchema (typeMapping custom) o names t (k :: site) f) as [sc|] eqn:Ec; [|congruence].
    exists (bt_name b, sc). split; auto. apply in_flat_map.
    exists (f, Some sc). split.
    + apply (Permutation_in _ (Hf site _ _)). rewrite <- Ec.
      exact (in_map (fun kf => (snd kf, componentToSchema (typeMapping custom) o names t (fst kf :: site) (snd kf))) _ _ Hkf).
    + unfold shown_entry. cbn [fst snd]. rewrite Ee, Hb, Hn. left; auto.
Qed.

(** ** References *)
Lemma refs_eq s :
  refs s = ((if String.eqb (s_ref s) "" then [] else [s_ref s])
   ++ flat_map refs (s_allOf s)
   ++ match s_items s with Some i => refs i | None => [] end
   ++ flat_map (fun p => refs (snd p)) (s_props s)
   ++ match s_addl s with Some a => refs a | None => [] end)%list.
Proof. destruct s; reflexivity. Qed.

Section Refs.
  Context (names : list (string * string)).
  Definition named (r : string) : Prop :=
    exists n k, r = "#/components/schemas/" ++ n /\ mlookup k names = Some n.
  Definition refs_ok (s : Schema) : Prop := forall r, In r (refs s) -> named r.

  Lemma make_ref_named t n p r : makeComponentRef names t n p = Some r -> named r.
  Proof.
    unfold makeComponentRef, makeComponentRefName. intros H.
    destruct (mlookup (collisionSafeKey t n p) names) as [x|] eqn:E.
    - injection H as <-. exists x; eauto.
    - destruct (mlookup (collisionSafeKey NoBindingTag n p) names) as [x|] eqn:E2; [|discriminate].
      injection H as <-. exists x; eauto.
  Qed.

  Lemma ref_schema_ok t n p r : makeComponentRef names t n p = Some r -> refs_ok (refSchema r).
  Proof.
    intros H x Hx. apply make_ref_named in H. unfold refSchema in Hx. rewrite refs_eq in Hx. simpl in Hx.
    destruct (String.eqb r ""); simpl in Hx; [tauto|]. rewrite app_nil_r in Hx || idtac.
    destruct Hx as [<-|Hx]; [auto|]. simpl in Hx. tauto.
  Qed.

  Lemma refs_ok_plain t f e : refs_ok (mkSchema "" t f 0 e [] None [] None "").
  Proof. intros r []. Qed.

  Lemma predefined_ok t : refs_ok (mapPredefinedTypeFormat t).
  Proof.
    unfold mapPredefinedTypeFormat. destruct (mlookup t PredefinedTypeMap) as [tf|]; [destruct (String.eqb _ _)|]; intros r [].
  Qed.
  Lemma type_format_ok tm t p : refs_ok (mapTypeFormat tm t p).
  Proof. unfold mapTypeFormat. destruct (tm t p) as [tf|]; [destruct (String.eqb _ _)|]; intros r []. Qed.

  Lemma refs_set_items i s : s_items s = None -> refs_ok i -> refs_ok s -> refs_ok (set_items i s).
  Proof.
    intros Hn Hi Hs r Hr. rewrite refs_eq in Hr. simpl in Hr.
    rewrite !in_app_iff in Hr.
    assert (forall l, In r l -> (forall x, In x l -> In x (refs s)) -> named r) as H by eauto.
    destruct Hr as [Hr|[Hr|[Hr|[Hr|Hr]]]]; auto; apply Hs; rewrite refs_eq, !in_app_iff; auto.
  Qed.
  Lemma refs_set_addl a s : s_addl s = None -> refs_ok a -> refs_ok s -> refs_ok (set_addl a s).
  Proof.
    intros Hn Hi Hs r Hr. rewrite refs_eq in Hr. simpl in Hr.
    rewrite !in_app_iff in Hr.
    destruct Hr as [Hr|[Hr|[Hr|[Hr|Hr]]]]; auto; apply Hs; rewrite refs_eq, !in_app_iff; auto.
  Qed.
  Lemma refs_set_desc d s : refs (set_desc d s) = refs s.
  Proof. destruct s; reflexivity. Qed.
  Lemma refs_set_enum d s : refs (set_enum d s) = refs s.
  Proof. destruct s; reflexivity. Qed.
  Lemma refs_array i n : refs_ok i -> refs_ok (arraySchema i n).
  Proof. intros H r Hr. rewrite refs_eq in Hr. simpl in Hr. rewrite app_nil_r in Hr. auto. Qed.
  Lemma refs_map a : refs_ok a -> refs_ok (mapSchema a).
  Proof. intros H r Hr. rewrite refs_eq in Hr. simpl in Hr. auto. Qed.

  Lemma predefined_items t : s_items (mapPredefinedTypeFormat t) = None /\ s_addl (mapPredefinedTypeFormat t) = None.
  Proof.
    unfold mapPredefinedTypeFormat. destruct (mlookup t PredefinedTypeMap) as [tf|]; [destruct (String.eqb _ _)|]; auto.
  Qed.

  Lemma element_ok t e p : refs_ok (elementSchema names t e p).
  Proof.
    unfold elementSchema. destruct (_ && _); [|apply predefined_ok].
    destruct (makeComponentRef names t e p) eqn:E; [eapply ref_schema_ok; eauto|apply predefined_ok].
  Qed.

  Lemma field_schema_ok t f s : mapFieldToSchema names t f = Some s -> refs_ok s.
  Proof.
    unfold mapFieldToSchema. destruct (IsAcceptedType (f_type f)); cbn [negb].
    - destruct (String.eqb (f_type f) "slice").
      + intros [= <-]. apply refs_set_items; [apply predefined_items| |apply predefined_ok].
        destruct (negb _); [|apply refs_ok_plain].
        destruct (makeComponentRef names t (f_sliceType f) (f_package f)) eqn:E; [eapply ref_schema_ok; eauto|apply refs_ok_plain].
      + destruct (String.eqb (f_type f) "map").
        * intros [= <-]. apply refs_set_addl; [apply predefined_items| |apply predefined_ok].
          destruct (negb _); [|apply predefined_ok].
          destruct (makeComponentRef names t (f_mapValueType f) (f_package f)) eqn:E; [eapply ref_schema_ok; eauto|apply refs_ok_plain].
        * intros [= <-]. apply predefined_ok.
    - destruct (makeComponentRef names t (f_type f) (f_package f)) eqn:E; [|discriminate].
      intros [= <-]. eapply ref_schema_ok; eauto.
  Qed.

  Lemma param_schema_ok t p s : mapParamToSchema names t p = Some s -> refs_ok s.
  Proof.
    unfold mapParamToSchema. destruct (p_isBound p); [apply field_schema_ok|].
    destruct (p_isArray p).
    - intros [= <-]. apply refs_array. destruct (negb _); [|apply predefined_ok].
      destruct (makeComponentRef _ _ _ _) eqn:E; [eapply ref_schema_ok; eauto|apply predefined_ok].
    - destruct (p_isMap p); intros [= <-]; [|apply predefined_ok].
      apply refs_map. destruct (negb _); [|apply predefined_ok].
      destruct (makeComponentRef _ _ _ _) eqn:E; [eapply ref_schema_ok; eauto|apply refs_ok_plain].
  Qed.

  Lemma mof_in {V} (l : list (string * V)) (P : V -> Prop) m :
    (forall kv, In kv m -> P (snd kv)) -> (forall kv, In kv l -> P (snd kv)) ->
    forall kv, In kv (fold_left (fun m kv => minsert (fst kv) (snd kv) m) l m) -> P (snd kv).
  Proof.
    revert m. induction l as [|x l IH]; intros m Hm Hl; simpl; auto.
    apply IH; [|intros; apply Hl; simpl; auto]. intros kv Hin.
    assert (forall k v (m : list (string * V)) kv, In kv (minsert k v m) -> kv = (k, v) \/ In kv m) as Hmi.
    { clear. intros k v m. induction m as [|[k' v'] r IH]; simpl; intros kv H; [intuition|].
      destruct (String.eqb k' k); [simpl in H; intuition|].
      destruct (str_ltb k k'); simpl in H; [intuition|]. destruct H as [H|H]; auto. apply IH in H. intuition. }
    apply Hmi in Hin as [->|Hin]; [exact (Hl x (or_introl eq_refl))|auto].
  Qed.

  Context (tm : string -> string -> option TypeFormat) (o : Orders).
  Context (Hf : forall site (A : Type) (l : list A), Permutation l (o_fields o site A l)).

  Lemma component_ok c : forall t site s, componentToSchema tm o names t site c = Some s -> refs_ok s.
  Proof.
    induction c as [c IH] using Field_ind'. intros t site s. rewrite component_to_schema_eq.
    destruct (tm (f_name c) (f_package c)); [intros [= <-]; apply type_format_ok|].
    destruct (String.eqb (f_type c) "struct").
    - rewrite struct_loop_eq. cbn [app].
      set (es := o_fields o site _ (field_entries tm o names t site (f_structFields c))).
      destruct (forallb (bound_entry t) es); [|discriminate].
      assert (Hes : forall f sc, In (f, Some sc) es -> refs_ok sc).
      { intros f sc Hin. apply (Permutation_in _ (Permutation_sym (Hf site _ _))) in Hin.
        apply in_map_iff in Hin as ([k g] & E & Hin). injection E as <- E.
        rewrite Forall_forall in IH. eapply (IH (k, g)); eauto. }
      assert (Hp : forall kv, In kv (fold_left (fun m kv => minsert (fst kv) (snd kv) m) (flat_map (shown_entry t) es) []) -> refs_ok (snd kv)).
      { apply mof_in; [intros kv []|]. intros kv Hin. apply in_flat_map in Hin as ([f [sc|]] & Hin & Hs); unfold shown_entry in Hs; cbn [fst snd] in Hs.
        - destruct (f_isEmbedded f); [destruct Hs|]. destruct (fieldBindingOf t f); [|destruct Hs].
          destruct (negb _); [|destruct Hs]. destruct Hs as [<-|[]]. eapply Hes; eauto.
        - destruct (f_isEmbedded f); [destruct Hs|]. destruct (fieldBindingOf t f); [|destruct Hs].
          destruct (negb _); destruct Hs. }
      assert (He : forall x, In x (flat_map (embedded_entry names t) es) -> refs_ok x).
      { intros x Hin. apply in_flat_map in Hin as (e & _ & Hin). unfold embedded_entry in Hin.
        destruct (f_isEmbedded (fst e)); [|destruct Hin].
        destruct (makeComponentRef _ _ _ _) eqn:E; [|destruct Hin]. destruct Hin as [<-|[]]. eapply ref_schema_ok; eauto. }
      remember (fold_left (fun m kv => minsert (fst kv) (snd kv) m) (flat_map (shown_entry t) es) []) as m eqn:Em. clear Em.
      remember (flat_map (embedded_entry names t) es) as emb eqn:Eemb. clear Eemb.
      assert (Hm : forall ty, refs_ok (mkSchema "" ty "" 0 [] [] None m None "")).
      { intros ty r Hr. rewrite refs_eq in Hr. simpl in Hr. rewrite app_nil_r in Hr.
        apply in_flat_map in Hr as (kv & Hin & Hr). eapply Hp; eauto. }
      unfold finishStruct. destruct m as [|kv m], emb as [|e emb]; intros [= <-]; try apply Hm.
      + intros r Hr. rewrite refs_eq in Hr. cbn [s_ref s_allOf s_items s_props s_addl String.eqb app flat_map] in Hr.
        rewrite !app_nil_r in Hr. apply (in_flat_map refs (e :: emb)) in Hr as (x & Hin & Hr). eapply He; eauto.
      + intros r Hr. rewrite refs_eq in Hr. cbn [s_ref s_allOf s_items s_props s_addl String.eqb app] in Hr.
        cbn [flat_map app] in Hr. rewrite !app_nil_r in Hr.
        apply (in_flat_map refs (e :: emb ++ [_])) in Hr as (x & Hin & Hr).
        rewrite app_comm_cons, in_app_iff in Hin. destruct Hin as [Hin|[<-|[]]]; [eapply He; eauto|].
        eapply Hm; eauto.
    - destruct (String.eqb (f_type c) "slice"); [intros [= <-]; apply refs_array, element_ok|].
      destruct (String.eqb (f_type c) "array"); [intros [= <-]; apply refs_array, element_ok|].
      destruct (String.eqb (f_type c) "map"); [intros [= <-]; apply refs_map, element_ok|].
      cbn zeta. destruct (_ && _).
      + destruct (makeComponentRef _ _ _ _) eqn:E; intros [= <-]; [eapply ref_schema_ok; eauto|apply predefined_ok].
      + intros [= <-]. unfold refs_ok. rewrite refs_set_enum. apply predefined_ok.
  Qed.

  Lemma component_props_ok c t site s :
    componentToSchema tm o names t site c = Some s -> forall kv, In kv (s_props s) -> refs_ok (snd kv).
  Proof.
    intros E kv Hin r Hr. apply (component_ok _ _ _ _ E). rewrite refs_eq, !in_app_iff.
    do 3 right. left. apply in_flat_map. eauto.
  Qed.

  Context (Hprops : forall site l, Permutation l (o_props o site l)).
  Context (Hsort : forall site l, Permutation l (o_sort o site l)).
  Context (components : list Field).

  Lemma minsert_in {V} k v (m : list (string * V)) kv : In kv (minsert k v m) -> kv = (k, v) \/ In kv m.
  Proof.
    induction m as [|[k' v'] r IH]; simpl; intros H; [intuition|].
    destruct (String.eqb k' k); [simpl in H; intuition|].
    destruct (str_ltb k k'); simpl in H; [intuition|]. destruct H as [H|H]; auto. apply IH in H. intuition.
  Qed.

  Lemma query_param_ok site p q : In q (queryParam tm o names components site p) -> refs_ok (pa_schema q).
  Proof.
    unfold queryParam. destruct (mapParamToSchema names FormBindingTag p) as [s|] eqn:E; [|intros []].
    destruct (p_isBound p).
    - destruct (findComponentByPackageAndType _ _ _) as [f|]; [|intros []].
      destruct (componentToSchema tm o names FormBindingTag site f) as [cs|] eqn:Ec; [|intros []].
      intros Hin. apply in_map_iff in Hin as (kv & <- & Hin).
      destruct (getQueryParamStyle (snd kv)). cbn [pa_schema].
      apply (Permutation_in _ (Permutation_sym (Hprops _ _))) in Hin. eapply component_props_ok; eauto.
    - destruct (getQueryParamStyle s). intros [<-|[]]. cbn [pa_schema]. eapply param_schema_ok; eauto.
  Qed.

  Lemma operation_ok site r : forall x, In x (operation_refs (operationOf tm o names components site r)) -> named x.
  Proof.
    intros x. unfold operation_refs, operationOf. cbn [op_parameters op_requestBody op_responses].
    rewrite !in_app_iff. intros [H|[H|H]].
    - apply in_flat_map in H as (q & Hq & Hx).
      apply (Permutation_in _ (Permutation_sym (Hsort _ _))) in Hq. rewrite !in_app_iff in Hq.
      assert (Hs : forall t place l, In q (simpleParams names t place l) -> refs_ok (pa_schema q)).
      { intros t place l Hl. apply in_flat_map in Hl as (p & _ & Hl).
        destruct (mapParamToSchema names t p) eqn:E; [|destruct Hl]. destruct Hl as [<-|[]].
        cbn [pa_schema]. eapply param_schema_ok; eauto. }
      destruct Hq as [Hq|[Hq|Hq]]; [eapply Hs; eauto|eapply Hs; eauto|].
      assert (Hall : forall l i, In q (queryParams tm o names components site i l) -> refs_ok (pa_schema q)).
      { induction l as [|p l IH]; intros i; cbn [queryParams]; [intros []|]. rewrite in_app_iff.
        intros [Hp|Hp]; [eapply query_param_ok; eauto|eauto]. }
      eapply Hall; eauto.
    - assert (Hb : forall l rb, (forall m, rb = Some m -> forall kv, In kv m -> refs_ok (snd kv)) ->
                forall m, fold_left (addBody names) l rb = Some m -> forall kv, In kv m -> refs_ok (snd kv)).
      { induction l as [|b l IH]; intros rb Hrb; simpl; auto. apply IH. intros m Em kv Hin.
        unfold addBody in Em. destruct (mapFieldToSchema _ _ _) as [s|] eqn:Es; [|eapply Hrb; eauto].
        injection Em as <-. apply minsert_in in Hin as [->|Hin].
        - cbn [snd]. apply field_schema_ok in Es. destruct (negb _); auto.
          intros y Hy. rewrite refs_eq in Hy. simpl in Hy. rewrite !app_nil_r in Hy. auto.
        - destruct rb as [m|]; [eapply Hrb; eauto|destruct Hin]. }
      destruct (fold_left (addBody names) (rt_body r) None) as [m|] eqn:Em; [|destruct H].
      apply in_flat_map in H as (kv & Hkv & Hx). assert (H0 : forall m0, None = Some m0 -> forall kv : string * Schema, In kv m0 -> refs_ok (snd kv)) by discriminate.
      exact (Hb (rt_body r) None H0 m Em kv Hkv x Hx).
    - apply in_flat_map in H as ([st resp] & Hin & Hx).
      set (P := fun resp => forall x, In x (response_refs resp) -> named x).
      set (headers := fold_left (addHeader names) (rt_respHeaders r) []) in *.
      assert (Hh : forall h, In h headers -> refs_ok (h_schema (snd h))).
      { unfold headers. assert (forall l hs, (forall h, In h hs -> refs_ok (h_schema (snd h))) ->
             forall h, In h (fold_left (addHeader names) l hs) -> refs_ok (h_schema (snd h))) as Hg.
        { induction l as [|p l IH]; intros hs Hhs; simpl; auto. apply IH. intros h Hin'.
          unfold addHeader in Hin'. destruct (mapParamToSchema _ _ _) eqn:E; auto.
          apply minsert_in in Hin' as [->|Hin']; auto. cbn. eapply param_schema_ok; eauto. }
        apply Hg. intros h []. }
      assert (Hr : forall l rs, (forall kv, In kv rs -> P (snd kv)) ->
                forall kv, In kv (fold_left (addResponse names headers) l rs) -> P (snd kv)).
      { induction l as [|rt l IH]; intros rs Hrs; simpl; auto. apply IH. intros kv Hkv.
        unfold addResponse in Hkv.
        set (resp0 := match mlookup (itoa (r_status rt)) rs with Some r => r | None => mkResponse headers [] end) in *.
        assert (H0 : P resp0).
        { unfold resp0. destruct (mlookup (itoa (r_status rt)) rs) eqn:E.
          - apply mlookup_In in E. apply (Hrs _ E).
          - intros y Hy. unfold response_refs in Hy. cbn [resp_headers resp_content flat_map] in Hy. rewrite app_nil_r in Hy.
            apply in_flat_map in Hy as (h & Hh' & Hy). eapply Hh; eauto. }
        apply minsert_in in Hkv as [->|Hkv]; auto. cbn [snd].
        destruct (negb _); auto. intros y Hy. unfold response_refs in Hy. cbn [resp_headers resp_content] in Hy.
        apply in_app_iff in Hy as [Hy|Hy]; [apply H0; apply in_app_iff; auto|].
        apply in_flat_map in Hy as (c & Hc & Hy). apply minsert_in in Hc as [->|Hc].
        - cbn [snd] in Hy. destruct (mapFieldToSchema _ _ _) eqn:E; [eapply field_schema_ok; eauto|destruct Hy].
        - apply H0. apply in_app_iff. right. apply in_flat_map. eauto. }
      apply (Hr _ []) in Hin; [|intros kv []]. apply Hin; auto.
  Qed.

  Lemma paths_ok routes : forall i paths,
    (forall kv, In kv paths -> forall x, In x (path_refs (snd kv)) -> named x) ->
    forall kv, In kv (addPaths tm o names components i routes paths) -> forall x, In x (path_refs (snd kv)) -> named x.
  Proof.
    induction routes as [|r l IH]; intros i paths Hp; cbn [addPaths]; auto. apply IH. intros kv Hin x Hx.
    unfold addPath in Hin. apply minsert_in in Hin as [->|Hin]; [|eapply Hp; eauto]. cbn [snd] in Hx.
    set (item := match mlookup (openapi_path (rt_path r)) paths with None => emptyPath | Some p => p end) in *.
    assert (Hi : forall y, In y (path_refs item) -> named y).
    { unfold item. destruct (mlookup _ paths) eqn:E; [apply mlookup_In in E; eapply (Hp _ E)|intros y []]. }
    assert (Hor : In x (path_refs item) \/ In x (operation_refs (operationOf tm o names components ["route"; itoa (Z.of_nat i)] r))).
    { clear - Hx. revert Hx. unfold path_refs. cbn [flat_map]. rewrite !in_app_iff. unfold setMethod.
      repeat match goal with |- context [if ?b then _ else _] => destruct b end;
        cbn [pi_get pi_put pi_post pi_delete pi_options pi_head pi_patch pi_trace]; tauto. }
    destruct Hor as [H|H]; [auto|eapply operation_ok; eauto].
  Qed.

  Lemma schemas_ok cs : forall schemas,
    (forall kv, In kv schemas -> refs_ok (snd kv)) ->
    forall kv, In kv (fold_left (fun acc c => fold_left (fun acc' bt => addSchema tm o names acc' c bt) BindingTags acc) cs schemas) -> refs_ok (snd kv).
  Proof.
    assert (H1 : forall c bt schemas, (forall kv, In kv schemas -> refs_ok (snd kv)) ->
              forall kv, In kv (addSchema tm o names schemas c bt) -> refs_ok (snd kv)).
    { intros c bt schemas Hs kv. unfold addSchema.
      destruct (componentToSchema _ _ _ _ _ _) as [s|] eqn:E; auto.
      destruct (makeComponentRefName _ _ _ _); auto. intros Hin. apply minsert_in in Hin as [->|Hin]; auto.
      cbn [snd]. destruct (negb _); [unfold refs_ok; rewrite refs_set_desc|]; eapply component_ok; eauto. }
    induction cs as [|c cs IH]; intros schemas Hs; cbn [fold_left]; auto. apply IH.
    clear IH. revert schemas Hs. induction BindingTags as [|bt l IHl]; intros schemas Hs; cbn [fold_left]; auto.
    apply IHl. intros kv Hin. eapply H1; eauto.
  Qed.
End Refs.

(** ** Every registered name has its schema *)
Section Registered.
  Context (tm : string -> string -> option TypeFormat) (o : Orders) (names : list (string * string)).

  Lemma add_schema_keeps schemas c bt k : In k (mkeys schemas) -> In k (mkeys (addSchema tm o names schemas c bt)).
  Proof.
    unfold addSchema. intros H. destruct (componentToSchema _ _ _ _ _ _); auto.
    destruct (makeComponentRefName _ _ _ _); auto. apply minsert_keys. auto.
  Qed.
  Lemma add_tags_keeps l c k : forall schemas, In k (mkeys schemas) ->
    In k (mkeys (fold_left (fun acc' bt => addSchema tm o names acc' c bt) l schemas)).
  Proof. induction l as [|bt l IH]; intros schemas H; cbn [fold_left]; auto. apply IH. now apply add_schema_keeps. Qed.
  Lemma add_all_keeps cs k : forall schemas, In k (mkeys schemas) ->
    In k (mkeys (fold_left (fun acc c => fold_left (fun acc' bt => addSchema tm o names acc' c bt) BindingTags acc) cs schemas)).
  Proof. induction cs as [|c cs IH]; intros schemas H; cbn [fold_left]; auto. apply IH. now apply add_tags_keeps. Qed.

  Lemma add_schemas_has cs c bt n : forall schemas,
    In c cs -> In bt BindingTags ->
    (forall site, componentToSchema tm o names bt site c <> None) ->
    makeComponentRefName names bt (f_name c) (f_package c) = Some n ->
    In n (mkeys (fold_left (fun acc c => fold_left (fun acc' bt => addSchema tm o names acc' c bt) BindingTags acc) cs schemas)).
  Proof.
    induction cs as [|c' cs IH]; intros schemas Hc Hbt Hs Hn; [destruct Hc|]. cbn [fold_left].
    destruct Hc as [->|Hc]; [|now apply IH]. apply add_all_keeps.
    clear IH. revert schemas Hbt. induction BindingTags as [|bt' l IHl]; intros schemas Hbt; [destruct Hbt|]. cbn [fold_left].
    destruct Hbt as [->|Hbt]; [|now apply IHl]. apply add_tags_keeps.
    unfold addSchema. specialize (Hs ["component"; f_package c; f_name c; bt]).
    destruct (componentToSchema _ _ _ _ _ _); [|congruence]. rewrite Hn. apply minsert_keys. auto.
  Qed.
End Registered.

Lemma parsed_map_bindings fields : parsed_fields fields -> map_bindings fields.
Proof.
  intros H k f Hin. destruct (H k f Hin) as (name & tag & _ & HP).
  eapply Permutation_NoDup; [apply Permutation_map; exact HP|]. apply parse_tag_keys.
Qed.

Lemma all_refs_resolve o custom config routes components d names :
  valid_orders o -> parsed_components components -> unambiguous components -> NoDup (map comp_key components) ->
  (forall c, In c components -> covered custom c) ->
  generated o custom config routes components [] d names ->
  forall r, In r (document_refs d) -> resolves d r.
Proof.
  intros Ho Hp Hu HN Hcov G r Hr.
  destruct (generated_inv _ _ _ _ _ _ _ _ G) as (c & _ & En & Ep & Es).
  pose proof Ho as (_ & Hf & _ & Hpr & Hso).
  assert (Hnamed : named names r).
  { unfold document_refs in Hr. rewrite Ep, Es in Hr. apply in_app_iff in Hr as [Hr|Hr].
    - apply in_flat_map in Hr as (kv & Hin & Hr).
      eapply paths_ok; eauto; [intros site l; apply Hso|]. intros kv' [].
    - apply in_flat_map in Hr as (kv & Hin & Hr). unfold addSchemas in Hin.
      eapply schemas_ok; [exact Hf| |exact Hin|exact Hr]. intros kv' []. }
  destruct Hnamed as (n & k & -> & Hk). unfold resolves.
  assert (Hin : In n (mkeys (d_schemas d))).
  { pose proof (make_names_lookup _ _ _ _ Ho Hp Hu HN En) as [Hreg Hnot].
    rewrite make_names_eq in En. destruct (forallb _ _); [|discriminate].
    assert (Hent : exists c t, In c components /\ registered c t /\ n = name_at (level_of components c) (verdict c) t c).
    { injection En as En. rewrite <- En in Hk. apply assign_lookup_in in Hk as [Hk|Hk]; [|discriminate].
      apply all_entries_in in Hk as (c1 & t & Hc & Ht & _ & E); eauto. }
    destruct Hent as (c1 & t & Hc & Ht & Hname).
    destruct (Hcov c1 Hc t Ht) as (bt & Hbt & Hd & Hcase).
    rewrite Es. unfold addSchemas. apply (add_schemas_has _ _ _ _ c1 bt); auto.
    - intros site. apply component_schema_iff; auto. apply parsed_map_bindings, Hp, Hc.
    - assert (Hz : nonzero_fields (f_structFields c1)) by (apply parsed_nonzero, Hp, Hc).
      assert (Hv : forall t', verdict c1 = false -> name_at (level_of components c1) (verdict c1) t' c1 = n).
      { intros t' Hv. rewrite Hname, Hv. unfold name_at. reflexivity. }
      unfold makeComponentRefName.
      destruct (mlookup (collisionSafeKey bt (f_name c1) (f_package c1)) names) as [n'|] eqn:El.
      + (* something is registered under bt: it is this component *)
        assert (Hrb : registered c1 bt).
        { injection En as En. rewrite <- En in El. apply assign_lookup_in in El as [El|El]; [|discriminate].
          apply all_entries_in in El as (c2 & t2 & Hc2 & Ht2 & E & _); auto.
          apply (key_inj components) in E; auto; [|right; auto|eapply registered_tag; eauto; apply Hp; auto].
          destruct E as [-> E]. apply (nodup_key_eq components) in E; auto. now subst. }
        rewrite (Hreg c1 bt Hc Hrb) in El. injection El as <-.
        destruct Hcase as [->|[[-> Hnr]|[Hdiff _]]]; [congruence|contradiction|].
        f_equal. apply Hv. destruct (verdict c1) eqn:Ev; auto. apply verdict_spec in Ev; auto. contradiction.
      + destruct Hcase as [->|[[-> Hnr]|[Hdiff [Hrb|Hrb]]]].
        * rewrite (Hreg c1 t Hc Ht) in El. discriminate.
        * rewrite (Hreg c1 NoBindingTag Hc Ht). congruence.
        * rewrite (Hreg c1 bt Hc Hrb) in El. discriminate.
        * rewrite (Hreg c1 NoBindingTag Hc Hrb). f_equal. apply Hv.
          destruct (verdict c1) eqn:Ev; auto. apply verdict_spec in Ev; auto. contradiction. }
  apply mlookup_Some_key in Hin as [s Hs]. exists n, s. auto.
Qed.

(** ** Iteration order *)
Lemma nodup_flat {A B} (g : A -> list B) l :
  (forall x, List.length (g x) <= 1) ->
  (forall i j x y b, nth_error l i = Some x -> nth_error l j = Some y -> In b (g x) -> In b (g y) -> i = j) ->
  NoDup (flat_map g l).
Proof.
  intros Hl. induction l as [|a l IH]; intros H; simpl; [constructor|].
  assert (HN : NoDup (flat_map g l)).
  { apply IH. intros i j x y b Hi Hj Hx Hy. specialize (H (S i) (S j) x y b Hi Hj Hx Hy). congruence. }
  specialize (Hl a). destruct (g a) as [|b [|? ?]] eqn:E; simpl in *; auto; [|lia].
  constructor; auto. intros Hin. apply in_flat_map in Hin as (y & Hy & Hb).
  apply In_nth_error in Hy as [j Hj]. specialize (H 0 (S j) a y b eq_refl Hj). rewrite E in H. specialize (H (or_introl eq_refl) Hb).
  discriminate.
Qed.

Lemma short_perm {A} (l l' : list A) : List.length l <= 1 -> Permutation l l' -> l = l'.
Proof.
  destruct l as [|a [|? ?]]; simpl; intros H HP; [|now apply Permutation_length_1_inv in HP|lia].
  now apply Permutation_nil in HP.
Qed.

Lemma shown_entry_short t e : List.length (shown_entry t e) <= 1.
Proof.
  unfold shown_entry. destruct (f_isEmbedded _); simpl; auto. destruct (fieldBindingOf _ _); simpl; auto.
  destruct (negb _); simpl; auto. destruct (snd e); simpl; auto.
Qed.

Lemma order_safe_nodup names tm o site t c :
  order_safe c -> In t BindingTags ->
  NoDup (map fst (flat_map (shown_entry t) (field_entries tm o names t site (f_structFields c)))) /\
  List.length (flat_map (embedded_entry names t) (field_entries tm o names t site (f_structFields c))) <= 1.
Proof.
  intros Hs Ht. inversion Hs as [c' Hm He Hd _]; subst. split.
  - assert (E : forall l : list (Field * option Schema), map fst (flat_map (shown_entry t) l) = flat_map (fun e => map fst (shown_entry t e)) l).
    { induction l as [|e l IH]; simpl; auto. rewrite map_app, IH. reflexivity. }
    rewrite E. apply nodup_flat.
    + intros e. rewrite map_length. apply shown_entry_short.
    + intros i j x y n Hi Hj Hx Hy. unfold field_entries in Hi, Hj. rewrite nth_error_map in Hi, Hj.
      destruct (nth_error (f_structFields c) i) as [[k1 f1]|] eqn:Ei; [|discriminate].
      destruct (nth_error (f_structFields c) j) as [[k2 f2]|] eqn:Ej; [|discriminate].
      injection Hi as <-. injection Hj as <-.
      assert (Hin : forall k f s, In (k, f) (f_structFields c) -> In n (map fst (shown_entry t (f, s))) ->
                f_isEmbedded f = false /\ exists b, binds t f b /\ bt_notShown b = false /\ bt_name b = n).
      { intros k f s Hkf H. unfold shown_entry in H. cbn [fst snd] in H.
        destruct (f_isEmbedded f); [destruct H|]. split; auto.
        destruct (fieldBindingOf t f) as [b|] eqn:Eb; [|destruct H].
        destruct (bt_notShown b) eqn:En; [destruct H|]. destruct s; [|destruct H]. destruct H as [<-|[]].
        exists b. repeat split; auto. apply field_binding_spec; eauto. }
      destruct (Hin _ _ _ (nth_error_In _ _ Ei) Hx) as (E1 & b1 & B1 & N1 & M1).
      destruct (Hin _ _ _ (nth_error_In _ _ Ej) Hy) as (E2 & b2 & B2 & N2 & M2).
      eapply (Hd t i j); eauto. congruence.
  - eapply Nat.le_trans; [|exact He]. clear. unfold field_entries.
    induction (f_structFields c) as [|[k f] l IH]; simpl; auto. rewrite app_length.
    unfold embedded_entry at 1. cbn [fst snd]. destruct (f_isEmbedded f); simpl.
    + destruct (makeComponentRef _ _ _ _); simpl; lia.
    + auto.
Qed.

Lemma component_order tm o o' names c : valid_orders o -> valid_orders o' -> order_safe c ->
  forall t site, In t BindingTags -> componentToSchema tm o names t site c = componentToSchema tm o' names t site c.
Proof.
  intros (_ & Hf & _) (_ & Hf' & _). induction c as [c IH] using Field_ind'. intros Hs t site Ht.
  rewrite !component_to_schema_eq. destruct (tm (f_name c) (f_package c)); auto.
  destruct (String.eqb (f_type c) "struct"); auto.
  assert (E : field_entries tm o names t site (f_structFields c) = field_entries tm o' names t site (f_structFields c)).
  { apply map_ext_in. intros [k f] Hin. cbn [fst snd]. f_equal. rewrite Forall_forall in IH.
    inversion Hs as [c' _ _ _ Hr]; subst. apply (IH (k, f)); auto. eapply Hr; eauto. }
  destruct (order_safe_nodup names tm o' site t c Hs Ht) as [HN Hl].
  rewrite E. f_equal. rewrite !struct_loop_eq. cbn [app].
  set (es := field_entries tm o' names t site (f_structFields c)) in *.
  assert (HP1 := Hf site _ es). assert (HP2 := Hf' site _ es).
  rewrite <- (forallb_perm _ _ _ HP1), <- (forallb_perm _ _ _ HP2). destruct (forallb _ _); auto.
  f_equal. f_equal.
  - transitivity (mof (flat_map (shown_entry t) es)).
    + symmetry. apply mof_perm; auto. now apply flat_map_perm.
    + apply mof_perm; auto. now apply flat_map_perm.
  - transitivity (flat_map (embedded_entry names t) es).
    + symmetry. apply short_perm; auto. now apply flat_map_perm.
    + apply short_perm; auto. now apply flat_map_perm.
Qed.

Lemma sorted_perm_eq l l' :
  name_sorted l -> name_sorted l' -> Permutation l l' -> NoDup (map pa_name l) -> l = l'.
Proof.
  unfold name_sorted. revert l'. induction l as [|a l IH]; intros l' S1 S2 HP HN.
  - now apply Permutation_nil in HP.
  - destruct l' as [|b l']; [apply Permutation_sym, Permutation_nil in HP; discriminate|].
    apply StronglySorted_inv in S1 as [S1 F1], S2 as [S2 F2]. rewrite Forall_forall in F1, F2.
    assert (a = b) as ->.
    { assert (Ha : In a (b :: l')) by (eapply Permutation_in; [exact HP|simpl; auto]).
      assert (Hb : In b (a :: l)) by (eapply Permutation_in; [symmetry; exact HP|simpl; auto]).
      destruct Ha as [Ha|Ha]; auto. destruct Hb as [Hb|Hb]; auto.
      pose proof (F1 b Hb) as L1. pose proof (F2 a Ha) as L2. cbn beta in L1, L2.
      destruct (str_trichotomy (pa_name a) (pa_name b)) as [T|[T|T]].
      - unfold str_lt in T. congruence.
      - exfalso. inversion HN as [|? ? Hni _]; subst. apply Hni. rewrite T. now apply in_map.
      - unfold str_lt in T. congruence. }
    f_equal. apply IH; auto.
    + now apply Permutation_cons_inv in HP.
    + now inversion HN.
Qed.

Section QueryOrder.
  Context (tm : string -> string -> option TypeFormat) (o o' : Orders) (names : list (string * string))
          (components : list Field) (Ho : valid_orders o) (Ho' : valid_orders o')
          (Hs : forall c, In c components -> order_safe c).

  Lemma query_param_order site p :
    Permutation (queryParam tm o names components site p) (queryParam tm o' names components site p).
  Proof.
    unfold queryParam. destruct (mapParamToSchema _ _ _) as [s|]; auto. destruct (p_isBound p); auto.
    destruct (findComponentByPackageAndType _ _ _) as [f|] eqn:E; auto.
    assert (Hin : In f components) by (eapply find_some; eauto).
    rewrite (component_order tm o o' names f); auto; [|simpl; tauto].
    destruct (componentToSchema tm o' names FormBindingTag site f) as [cs|]; auto.
    apply Permutation_map. destruct Ho as (_ & _ & _ & H & _), Ho' as (_ & _ & _ & H' & _).
    eapply Permutation_trans; [symmetry; apply H|apply H'].
  Qed.

  Lemma query_params_order site l : forall i,
    Permutation (queryParams tm o names components site i l) (queryParams tm o' names components site i l).
  Proof.
    induction l as [|p l IH]; intros i; cbn [queryParams]; auto. apply Permutation_app; auto. apply query_param_order.
  Qed.

  Lemma query_params_unbound site l : Forall unbound l -> forall i,
    queryParams tm o names components site i l = queryParams tm o' names components site i l.
  Proof.
    induction 1 as [|p l Hp _ IH]; intros i; cbn [queryParams]; auto. rewrite IH. f_equal.
    unfold queryParam. destruct (mapParamToSchema _ _ _); auto. rewrite Hp. reflexivity.
  Qed.

  Lemma operation_order site r :
    (forall s l, o_sort o s l = o_sort o' s l) ->
    Forall unbound (rt_queryParams r) \/ NoDup (map pa_name (op_parameters (operationOf tm o names components site r))) ->
    operationOf tm o names components site r = operationOf tm o' names components site r.
  Proof.
    intros Hsort H. unfold operationOf in *. cbn [op_parameters] in H. f_equal.
    destruct H as [Hu|HN].
    - rewrite Hsort. f_equal. f_equal. f_equal. now apply query_params_unbound.
    - set (l := (simpleParams names URIBindingTag "path" (rt_pathParams r) ++ simpleParams names HeaderBindingTag "header" (rt_reqHeaders r) ++ queryParams tm o names components site 0 (rt_queryParams r))%list) in *.
      set (l' := (simpleParams names URIBindingTag "path" (rt_pathParams r) ++ simpleParams names HeaderBindingTag "header" (rt_reqHeaders r) ++ queryParams tm o' names components site 0 (rt_queryParams r))%list) in *.
      assert (HP : Permutation l l').
      { unfold l, l'. do 2 apply Permutation_app_head. apply query_params_order. }
      destruct Ho as (_ & _ & _ & _ & H), Ho' as (_ & _ & _ & _ & H').
      destruct (H site l) as [P1 S1], (H' site l') as [P2 S2].
      apply sorted_perm_eq; auto. exact (Permutation_trans (Permutation_sym P1) (Permutation_trans HP P2)).
  Qed.

  Lemma add_schemas_order : addSchemas tm o names components [] = addSchemas tm o' names components [].
  Proof.
    assert (H : forall cs acc, (forall c, In c cs -> order_safe c) ->
      fold_left (fun acc c => fold_left (fun acc' bt => addSchema tm o names acc' c bt) BindingTags acc) cs acc =
      fold_left (fun acc c => fold_left (fun acc' bt => addSchema tm o' names acc' c bt) BindingTags acc) cs acc).
    { induction cs as [|c cs IH]; intros acc Hc; cbn [fold_left]; auto.
      rewrite IH by (intros; apply Hc; simpl; auto). f_equal.
      assert (Hl : forall l, (forall t, In t l -> In t BindingTags) -> forall acc,
        fold_left (fun acc' bt => addSchema tm o names acc' c bt) l acc =
        fold_left (fun acc' bt => addSchema tm o' names acc' c bt) l acc).
      { induction l as [|t l IHl]; intros Hl acc'; cbn [fold_left]; auto.
        rewrite IHl by (intros; apply Hl; simpl; auto). f_equal. unfold addSchema.
        rewrite (component_order tm o o' names c Ho Ho' (Hc c (or_introl eq_refl)) t _ (Hl t (or_introl eq_refl))).
        reflexivity. }
      apply Hl. auto. }
    apply H. auto.
  Qed.
End QueryOrder.

Lemma item_ext p q : (forall m, In m openapi_methods -> slot m p = slot m q) -> p = q.
Proof.
  intros H. destruct p, q.
  pose proof (H "GET"). pose proof (H "PUT"). pose proof (H "POST"). pose proof (H "DELETE").
  pose proof (H "OPTIONS"). pose proof (H "HEAD"). pose proof (H "PATCH"). pose proof (H "TRACE").
  cbn in *. f_equal; intuition.
Qed.

Lemma build_order o o' custom config routes components names0 d c names :
  valid_orders o -> valid_orders o' -> (forall s l, o_sort o s l = o_sort o' s l) ->
  parsed_components components -> unambiguous components -> NoDup (map comp_key components) -> msorted names0 ->
  (forall c, In c components -> order_safe c) ->
  buildDocument o custom config routes components names0 = Ok (d, c, names) ->
  (forall r op, In r routes -> documents d r op ->
     Forall unbound (rt_queryParams r) \/ NoDup (map pa_name (op_parameters op))) ->
  buildDocument o' custom config routes components names0 = Ok (d, c, names).
Proof.
  intros Ho Ho' Hsort Hp Hu HN Hm Hs E Hop.
  assert (G : generated o custom config routes components names0 d names) by (exists c; auto).
  rewrite <- E. unfold buildDocument in *. destruct config as [cf|]; [|discriminate].
  rewrite (make_names_order_independent o o') in * by auto.
  destruct (makeCollisionSafeNames o' components names0) as [n| | |]; cbn [bind] in *; try discriminate.
  injection E as Ed _ En. subst n.
  rewrite <- (add_schemas_order _ o o' names components Ho Ho' Hs).
  assert (Epaths : addPaths (typeMapping custom) o names components 0 routes [] = addPaths (typeMapping custom) o' names components 0 routes []).
  { apply smap_ext; try (apply add_paths_sorted; constructor). intros path.
    destruct (mlookup path (addPaths (typeMapping custom) o names components 0 routes [])) as [p|] eqn:E1,
             (mlookup path (addPaths (typeMapping custom) o' names components 0 routes [])) as [q|] eqn:E2; auto.
    - f_equal. apply item_ext. intros m _.
      pose proof (add_paths_slot (typeMapping custom) o names components routes 0 [] path m) as S1.
      pose proof (add_paths_slot (typeMapping custom) o' names components routes 0 [] path m) as S2.
      unfold slot_at in S1 at 1. unfold slot_at in S2 at 1. rewrite E1 in S1. rewrite E2 in S2. rewrite S1, S2.
      destruct (last_route path m 0 routes) as [[j r]|] eqn:El; auto.
      destruct (str_in m described) eqn:Em; auto. f_equal. unfold op_at.
      apply last_route_in in El as (Hr & Hpath & Hmeth).
      apply operation_order; auto. apply Hop; auto.
      split; [|split; reflexivity]. exists p. rewrite Hpath, Hmeth. split; [|exact S1].
      rewrite <- Ed. exact E1.
    - exfalso. apply mlookup_None in E2. apply E2.
      assert (In path (mkeys (addPaths (typeMapping custom) o names components 0 routes []))) as H by (apply mlookup_Some_key; eauto).
      apply add_paths_key in H. apply add_paths_key. exact H.
    - exfalso. apply mlookup_None in E1. apply E1.
      assert (In path (mkeys (addPaths (typeMapping custom) o' names components 0 routes []))) as H by (apply mlookup_Some_key; eauto).
      apply add_paths_key in H. apply add_paths_key. exact H. }
  rewrite Epaths. reflexivity.
Qed.

Lemma parsed_field_tags fields k f : parsed_fields fields -> In (k, f) fields ->
  f_bindingTags f <> [] /\ (forall t b, In (t, b) (f_bindingTags f) -> In t (NoBindingTag :: BindingTags) /\ b <> bt_zero) /\
  (In NoBindingTag (map fst (f_bindingTags f)) -> forall t, In t BindingTags -> ~ In t (map fst (f_bindingTags f))).
Proof.
  intros Hp Hin. destruct (Hp k f Hin) as (name & tag & Hn & HP).
  split; [|split].
  - intros E. rewrite E in HP. apply Permutation_sym, Permutation_nil in HP. revert HP. apply parse_tag_not_nil.
  - intros t b Hb. split.
    + assert (Hpf : parsed_fields [(k, f)]).
      { intros k' f' [[= <- <-]|[]]. exists name, tag. auto. }
      apply (registered_tag (mkField "" "" "" [] false false "" "" 0 "" "" "" [(k, f)] [] [] "")); auto.
      left. exists k, f, b. simpl. auto.
    + assert (Hz : nonzero_fields fields) by now apply parsed_nonzero.
      eapply Hz; eauto.
  - intros HNo t Ht Hin'.
    assert (Hf : forall x, In x (map fst (f_bindingTags f)) -> In x (map fst (fst (ParseStructTag name tag)))).
    { intros x. apply Permutation_in, Permutation_map, Permutation_sym, HP. }
    apply Hf in HNo, Hin'. revert HNo Hin'. unfold ParseStructTag. destruct (parseBindings name tag BindingTags) eqn:E; cbn [fst map].
    + intros _ [<-|[]]. revert Ht. simpl. intuition discriminate.
    + intros HNo _. assert (Hx : forall l x, In x (map fst (parseBindings name tag l)) -> In x l).
      { clear. induction l as [|y l IH]; intros x; cbn [parseBindings]; [intros []|].
        destruct (Lookup tag y); cbn [map fst In]; intuition. }
      change (In NoBindingTag (map fst (p :: b))) in HNo. rewrite <- E in HNo. apply Hx in HNo. revert HNo. simpl. intuition discriminate.
Qed.

Lemma uniform_covered custom c : parsed_fields (f_structFields c) -> uniform c -> covered custom c.
Proof.
  intros Hp Hu t Ht.
  assert (Hm : map_bindings (f_structFields c)) by now apply parsed_map_bindings.
  assert (Ht' : In t (NoBindingTag :: BindingTags)) by (eapply registered_tag; eauto).
  destruct Ht as [(k & f & b & Hf & Hb)|[Hno Ht]].
  - assert (Hall : forall k' f', In (k', f') (f_structFields c) -> exists b', has_binding t f' b').
    { intros k' f' Hf'. assert (Hin : In t (map fst (f_bindingTags f'))).
      { eapply (Hu k f k' f'); eauto. apply (in_map fst) in Hb. exact Hb. }
      apply in_map_iff in Hin as ([t' b'] & E & Hin). cbn in E. subst t'. exists b'. split; auto.
      eapply parsed_field_tags; eauto. }
    destruct Ht' as [<-|Ht'].
    + (* untagged struct: any tag will do *)
      exists JSONBindingTag. split; [simpl; tauto|].
      assert (Hnone : forall k' f' x, In (k', f') (f_structFields c) -> In x BindingTags -> ~ In x (map fst (f_bindingTags f'))).
      { intros k' f' x Hf' Hx. eapply parsed_field_tags; eauto. destruct (Hall _ _ Hf') as (b' & Hb' & _).
        apply (in_map fst) in Hb'. exact Hb'. }
      split.
      * right. right. intros k' f' Hf' _. destruct (Hall _ _ Hf') as (b' & Hb'). exists b'. right. split; auto.
        intros b2 [Hb2 _]. apply (Hnone k' f' JSONBindingTag); auto; [simpl; tauto|]. apply (in_map fst) in Hb2. exact Hb2.
      * right. left. split; auto. intros [(k' & f' & b' & Hf' & Hb')|[Hn _]].
        -- apply (Hnone k' f' JSONBindingTag); auto; [simpl; tauto|]. apply (in_map fst) in Hb'. exact Hb'.
        -- apply Hn. exists NoBindingTag, k, f, b. auto.
    + exists t. split; auto. split; auto. right. right. intros k' f' Hf' _.
      destruct (Hall _ _ Hf') as (b' & Hb'). exists b'. left; auto.
  - exists t. split; auto. split; auto. right. right. intros k f Hf _. exfalso. apply Hno.
    destruct (parsed_field_tags _ _ _ Hp Hf) as (Hne & _).
    destruct (f_bindingTags f) as [|[t' b'] l] eqn:E; [congruence|]. exists t', k, f, b'. rewrite E. simpl. auto.
Qed.
