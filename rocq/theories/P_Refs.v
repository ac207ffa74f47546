(** Proofs about the schemas behind references. *)
From Coq Require Import List String Ascii Bool ZArith Arith Lia Permutation Sorted.
From Verif Require Import BaseStr BaseMap M_Types M_Paths S_Paths P_Paths M_Tags S_Tags P_Tags S_Collect
  M_OpenAPI S_Names P_Names S_OpenAPI P_OpenAPI P_Schema S_More S_Refs P_Shape.
Import ListNotations.
Local Open Scope string_scope.

Lemma plain_unambiguous components level : plain_names components level -> unambiguous components.
Proof.
  intros Hpl. split; [intros c Hc; now destruct (Hpl c Hc)|].
  intros d1 d2 t Hd1 Hd2 Ht Ed. destruct (Hpl d1 Hd1) as [_ HF].
  pose proof (elems_not_nil (f_package d1)) as Hne.
  assert (Hlast : has_char "." (last_elem (f_package d1)) = false).
  { unfold last_elem. destruct (elems (f_package d1)) eqn:El; [congruence|].
    simpl in HF. inversion HF; subst. tauto. }
  rewrite <- package_name_last_elem in Hlast. unfold getPackageName in Hlast. rewrite Ed in Hlast.
  assert (has_char "/" ("." ++ t) = false) as Hns by (simpl in Ht; intuition (subst; reflexivity)).
  rewrite after_last_split, split_app in Hlast.
  rewrite (split_no_sep "/" ("." ++ t)) in Hlast by auto. cbn [hd tl] in Hlast.
  rewrite last_last, has_char_append, has_char_append in Hlast. simpl in Hlast.
  rewrite orb_true_r in Hlast. discriminate.
Qed.

Section Names.
  Context (o : Orders) (components : list Field) (names : list (string * string)) (level : string -> nat).
  Hypothesis Ho : valid_orders o.
  Hypothesis Hp : parsed_components components.
  Hypothesis Hs : separated components level.
  Hypothesis Hpl : plain_names components level.
  Hypothesis HN : NoDup (map comp_key components).
  Hypothesis En : makeCollisionSafeNames o components [] = Ok names.

  Lemma lookup_registered c t n : In c components -> In t (NoBindingTag :: BindingTags) ->
    (mlookup (collisionSafeKey t (f_name c) (f_package c)) names = Some n <->
     registered c t /\ n = name_at (level_of components c) (verdict c) t c).
  Proof.
    intros Hc Ht. pose proof (plain_unambiguous _ _ Hpl) as Hu.
    destruct (make_names_lookup _ _ _ _ Ho Hp Hu HN En) as [Hreg _]. split.
    - intros El. assert (R : registered c t).
      { rewrite make_names_eq in En. destruct (forallb _ _); [|discriminate]. injection En as En'.
        rewrite <- En' in El. apply assign_lookup_in in El as [El|El]; [|discriminate].
        apply all_entries_in in El as (c2 & t2 & Hc2 & Ht2 & E & _); auto.
        apply (key_inj components) in E; auto; [|eapply registered_tag; eauto; apply Hp; auto].
        destruct E as [-> E]. apply (nodup_key_eq components) in E; auto. now subst. }
      split; auto. rewrite (Hreg c t Hc R) in El. congruence.
    - intros [R ->]. auto.
  Qed.

  Lemma ref_name_cases c t : In c components -> In t BindingTags ->
    (registered c t /\ makeComponentRefName names t (f_name c) (f_package c) = Some (name_at (level_of components c) (verdict c) t c)) \/
    (~ registered c t /\ registered c NoBindingTag /\
     makeComponentRefName names t (f_name c) (f_package c) = Some (name_at (level_of components c) (verdict c) NoBindingTag c)) \/
    (~ has_name c t /\ makeComponentRefName names t (f_name c) (f_package c) = None).
  Proof.
    intros Hc Ht. unfold makeComponentRefName.
    destruct (mlookup (collisionSafeKey t (f_name c) (f_package c)) names) as [n|] eqn:E.
    - apply lookup_registered in E as [R ->]; auto. right; auto.
    - assert (R : ~ registered c t).
      { intros R. assert (X : mlookup (collisionSafeKey t (f_name c) (f_package c)) names = Some (name_at (level_of components c) (verdict c) t c))
          by (apply lookup_registered; auto; right; auto). congruence. }
      destruct (mlookup (collisionSafeKey NoBindingTag (f_name c) (f_package c)) names) as [n|] eqn:E2.
      + apply lookup_registered in E2 as [R2 ->]; auto. left; auto.
      + right. right. split; auto. intros [X|X]; [auto|].
        assert (Y : mlookup (collisionSafeKey NoBindingTag (f_name c) (f_package c)) names = Some (name_at (level_of components c) (verdict c) NoBindingTag c))
          by (apply lookup_registered; auto; left; auto). congruence.
  Qed.

  Lemma verdict_differs c : In c components -> (verdict c = true <-> bindings_differ (f_structFields c)).
  Proof. intros Hc. apply verdict_spec, parsed_nonzero, Hp, Hc. Qed.

  Lemma name_at_tag s t1 t2 c : name_at s true t1 c = name_at s true t2 c -> t1 = t2.
  Proof.
    unfold name_at. intros E. apply append_inj_l in E. change ("." ++ ?x) with (String "." x) in E. injection E as E.
    now apply append_inj_r in E.
  Qed.

  Lemma tag_not_empty t : In t BindingTags -> t <> NoBindingTag.
  Proof. intros H ->. simpl in H. intuition discriminate. Qed.

  Lemma same_name_shares c t t' n : In c components -> In t BindingTags -> In t' BindingTags ->
    makeComponentRefName names t (f_name c) (f_package c) = Some n ->
    makeComponentRefName names t' (f_name c) (f_package c) = Some n -> has_name c t' /\ shares c t t'.
  Proof.
    intros Hc Ht Ht' E E'. unfold shares.
    assert (V : verdict c = false -> ~ bindings_differ (f_structFields c)).
    { intros V X. apply verdict_differs in X; auto. congruence. }
    destruct (ref_name_cases c t Hc Ht) as [(R & X)|[(R & R0 & X)|(R & X)]]; [| |congruence];
      (destruct (ref_name_cases c t' Hc Ht') as [(R' & X')|[(R' & R0' & X')|(R' & X')]]; [| |congruence]).
    - split; [now left|]. rewrite X in E. rewrite X' in E'. destruct (verdict c) eqn:EV; auto.
      left. apply (name_at_tag (level_of components c) t t' c). congruence.
    - split; [now right|]. rewrite X in E. rewrite X' in E'. destruct (verdict c) eqn:EV; auto.
      exfalso. apply (tag_not_empty t Ht). apply (name_at_tag (level_of components c) t NoBindingTag c). congruence.
    - split; [now left|]. rewrite X in E. rewrite X' in E'. destruct (verdict c) eqn:EV; auto.
      exfalso. apply (tag_not_empty t' Ht'). apply (name_at_tag (level_of components c) t' NoBindingTag c). congruence.
    - split; [now right|]. auto.
  Qed.

  Lemma has_name_ref c t : In c components -> In t BindingTags -> has_name c t ->
    exists n, makeComponentRefName names t (f_name c) (f_package c) = Some n.
  Proof.
    intros Hc Ht H. destruct (ref_name_cases c t Hc Ht) as [(R & X)|[(R & R0 & X)|(R & X)]]; eauto. contradiction.
  Qed.

  Lemma shares_same_name c t t' : In c components -> In t BindingTags -> In t' BindingTags ->
    has_name c t -> has_name c t' -> shares c t t' ->
    makeComponentRefName names t (f_name c) (f_package c) = makeComponentRefName names t' (f_name c) (f_package c).
  Proof.
    intros Hc Ht Ht' H H' S.
    destruct (ref_name_cases c t Hc Ht) as [(R & X)|[(R & R0 & X)|(R & X)]]; [| |contradiction];
      (destruct (ref_name_cases c t' Hc Ht') as [(R' & X')|[(R' & R0' & X')|(R' & X')]]; [| |contradiction]);
      rewrite X, X'; auto; destruct S as [->|[[S S']|S]]; auto; try contradiction;
      destruct (verdict c) eqn:EV; try reflexivity; exfalso; apply S, verdict_differs; auto.
  Qed.

  (** ** Which schema stands at a name *)
  Context (custom : list (string * TypeFormat)).
  Definition with_doc (c : Field) (s : Schema) : Schema :=
    if negb (String.eqb (f_doc c) "") then set_desc (f_doc c) s else s.
  Definition site_of (c : Field) (t : string) : list string := ["component"; f_package c; f_name c; t].
  Definition stands (c : Field) (n : string) (schemas : list (string * Schema)) : Prop :=
    exists t s, In t BindingTags /\ makeComponentRefName names t (f_name c) (f_package c) = Some n /\
      componentToSchema (typeMapping custom) o names t (site_of c t) c = Some s /\
      mlookup n schemas = Some (with_doc c s).

  Lemma add_schema_stands c n schemas c' bt : In c components -> In c' components -> In bt BindingTags ->
    stands c n schemas -> stands c n (addSchema (typeMapping custom) o names schemas c' bt).
  Proof.
    intros Hc Hc' Hbt (t & s & Ht & Er & Es & El). unfold addSchema.
    destruct (componentToSchema _ _ _ _ _ c') as [s'|] eqn:Es'; [|exists t, s; auto].
    destruct (makeComponentRefName names bt (f_name c') (f_package c')) as [n'|] eqn:Er'; [|exists t, s; auto].
    destruct (String.eqb_spec n n') as [<-|Hne].
    - assert (c' = c).
      { apply (nodup_key_eq components); auto.
        apply (ref_name_inj o components names level c' c bt t n); auto; right; auto. }
      subst c'. exists bt, s'. split; auto. split; auto. split; auto. now rewrite mlookup_insert_eq.
    - exists t, s. split; auto. split; auto. split; auto. rewrite mlookup_insert_ne; auto.
  Qed.

  Lemma add_schema_own c n schemas bt : In c components -> In bt BindingTags ->
    makeComponentRefName names bt (f_name c) (f_package c) = Some n ->
    (forall site, componentToSchema (typeMapping custom) o names bt site c <> None) ->
    stands c n (addSchema (typeMapping custom) o names schemas c bt).
  Proof.
    intros Hc Hbt Er Hd. unfold addSchema. specialize (Hd (site_of c bt)). unfold site_of in Hd.
    destruct (componentToSchema (typeMapping custom) o names bt ["component"; f_package c; f_name c; bt] c) as [s|] eqn:Es; [|congruence].
    rewrite Er. exists bt, s. split; auto. split; auto. split; auto. now rewrite mlookup_insert_eq.
  Qed.

  Lemma add_tags_stands c c' n l : In c components -> In c' components -> (forall bt, In bt l -> In bt BindingTags) ->
    forall schemas, stands c n schemas -> stands c n (fold_left (fun acc bt => addSchema (typeMapping custom) o names acc c' bt) l schemas).
  Proof.
    intros Hc Hc'. induction l as [|bt l IH]; intros Hl schemas H; cbn [fold_left]; auto.
    apply IH; [intros; apply Hl; now right|]. apply add_schema_stands; auto. apply Hl. now left.
  Qed.

  Lemma schema_stands c t n : In c components -> In t BindingTags ->
    makeComponentRefName names t (f_name c) (f_package c) = Some n ->
    (forall site, componentToSchema (typeMapping custom) o names t site c <> None) ->
    stands c n (addSchemas (typeMapping custom) o names components []).
  Proof.
    intros Hc Ht Er Hd. unfold addSchemas.
    assert (G : forall cs schemas, (forall c', In c' cs -> In c' components) -> In c cs \/ stands c n schemas ->
      stands c n (fold_left (fun acc c0 => fold_left (fun acc' bt => addSchema (typeMapping custom) o names acc' c0 bt) BindingTags acc) cs schemas)).
    { induction cs as [|c' cs IH]; intros schemas Hcs H; cbn [fold_left]; [now destruct H as [[]|H]|].
      apply IH; [intros; apply Hcs; now right|].
      destruct H as [[->|H]|H].
      - right. clear IH. revert schemas.
        assert (L : forall l schemas, (forall bt, In bt l -> In bt BindingTags) -> In t l ->
          stands c n (fold_left (fun acc' bt => addSchema (typeMapping custom) o names acc' c bt) l schemas)).
        { induction l as [|bt l IHl]; intros schemas Hl Hin; [destruct Hin|]. cbn [fold_left].
          destruct Hin as [->|Hin]; [|apply IHl; auto; intros; apply Hl; now right].
          apply add_tags_stands; auto; [intros; apply Hl; now right|]. apply add_schema_own; auto. }
        intros schemas. apply L; auto.
      - now left.
      - right. apply add_tags_stands; auto. apply Hcs. now left. }
    apply G; auto.
  Qed.
End Names.

Lemma embedded_part tm o names t site c s k g r :
  valid_orders o -> tm (f_name c) (f_package c) = None -> f_type c = "struct" ->
  componentToSchema tm o names t site c = Some s ->
  In (k, g) (f_structFields c) -> f_isEmbedded g = true -> makeComponentRef names t (f_type g) (f_package g) = Some r ->
  In (refSchema r) (s_allOf s).
Proof.
  intros Ho Ht Hs E Hin Ee Er. pose proof Ho as (_ & Hf & _).
  rewrite component_to_schema_eq, Ht, Hs in E. cbn in E. rewrite struct_loop_eq in E.
  set (es := o_fields o site (Field * option Schema) (field_entries tm o names t site (f_structFields c))) in *.
  destruct (forallb _ es); [|discriminate]. cbn [app] in E.
  assert (I : In (refSchema r) (flat_map (embedded_entry names t) es)).
  { apply in_flat_map. exists (g, componentToSchema tm o names t (k :: site) g). split.
    - apply (Permutation_in _ (Hf site _ _)).
      exact (in_map (fun kf => (snd kf, componentToSchema tm o names t (fst kf :: site) (snd kf))) _ _ Hin).
    - unfold embedded_entry. cbn [fst]. rewrite Ee, Er. now left. }
  unfold finishStruct in E.
  destruct (flat_map (embedded_entry names t) es) as [|e l]; [destruct I|].
  destruct (fold_left _ _ _) as [|kv m]; injection E as <-; cbn [s_allOf]; auto.
  destruct I as [I|I]; [now left|]. right. apply in_app_iff. now left.
Qed.

Lemma struct_is_object tm o names t site c s :
  tm (f_name c) (f_package c) = None -> f_type c = "struct" ->
  componentToSchema tm o names t site c = Some s -> s_type s = "object".
Proof.
  intros Ht Hs E. rewrite component_to_schema_eq, Ht, Hs in E. cbn in E. unfold finishStruct in E.
  destruct (structLoop _ _ _ _ _) as [[[|kv m] [|e l]]|]; try discriminate; injection E as <-; reflexivity.
Qed.

Lemma struct_no_ref tm o names t site c s :
  tm (f_name c) (f_package c) = None -> f_type c = "struct" ->
  componentToSchema tm o names t site c = Some s -> s_ref s = "".
Proof.
  intros Ht Hs E. rewrite component_to_schema_eq, Ht, Hs in E. cbn in E. unfold finishStruct in E.
  destruct (structLoop _ _ _ _ _) as [[[|kv m] [|e l]]|]; try discriminate; injection E as <-; reflexivity.
Qed.

Lemma predefined_no_ref typ : s_ref (mapPredefinedTypeFormat typ) = "".
Proof. unfold mapPredefinedTypeFormat. destruct (mlookup _ _) as [tf|]; [destruct (String.eqb _ _)|]; reflexivity. Qed.

Lemma predefined_builtin typ : of_builtin typ (mapPredefinedTypeFormat typ).
Proof.
  split; [apply predefined_no_ref|]. intros tf E. unfold mapPredefinedTypeFormat. rewrite E. destruct (String.eqb_spec (tf_type tf) "") as [Z|Z]; cbn; auto.
Qed.

Lemma predefined_unknown typ : mlookup typ PredefinedTypeMap = None -> mapPredefinedTypeFormat typ = emptySchema.
Proof. intros E. unfold mapPredefinedTypeFormat. now rewrite E. Qed.

Section Fits.
  Context (o : Orders) (names : list (string * string)) (custom : list (string * TypeFormat)) (components : list Field) (t t' : string).
  Context (leaf : string -> string -> Schema -> Prop) (inside : string -> string -> Prop).
  Hypothesis Ho : valid_orders o.
  Hypothesis Hleaf : forall p n x, inside p n ->
    (forall c, In c components -> f_package c = p -> f_name c = n -> has_name c t' /\ shares c t t') ->
    (~ In n AcceptedTypes -> mlookup n PredefinedTypeMap = None -> forall r, makeComponentRef names t' n p = Some r -> x = refSchema r) ->
    leaf p n x.
  Hypothesis Hnamed : forall c, In c components -> has_name c t' -> exists r, makeComponentRef names t' (f_name c) (f_package c) = Some r.

  Lemma element_fits p e : inside p e ->
    (forall c, In c components -> f_package c = p -> f_name c = e -> has_name c t' /\ shares c t t') ->
    element leaf p e (elementSchema names t' e p).
  Proof.
    intros HI H. unfold elementSchema. split.
    - intros A. apply str_in_spec in A. change (str_in e AcceptedTypes) with (IsAcceptedType e) in A. rewrite A, andb_false_r.
      apply predefined_builtin.
    - intros A. apply Hleaf; auto. intros _ P r Er. rewrite (predefined_unknown e P). cbn [emptySchema s_type String.eqb andb].
      destruct (IsAcceptedType e) eqn:X; [apply str_in_spec in X; contradiction|]. cbn [negb]. now rewrite Er.
  Qed.

  Lemma schema_fits f : forall site s, (forall p n, names_type f p n -> inside p n) ->
    orderly custom t f -> alike components t t' f -> typeMapping custom (f_name f) (f_package f) = None ->
    componentToSchema (typeMapping custom) o names t' site f = Some s -> fits components t leaf f s.
  Proof.
    induction f as [f IH] using Field_ind'. intros site s HI HO HA HT E.
    inversion HO as [f0 Hm Hm2 Hd Hn]; subst f0. inversion HA as [f0 Hb Hc]; subst f0.
    destruct (String.eqb_spec (f_type f) "struct") as [ES|ES].
    - assert (AB : forall k g, In (k, g) (f_structFields f) -> f_isEmbedded g = false -> describable custom t' g).
      { intros k g Hin Ee. destruct (Hn k g Hin Ee) as (_ & X & _). destruct (Hb k g Hin Ee) as (_ & Y).
        destruct (String.eqb_spec (f_type g) "struct") as [Eg|Eg]; [|right; left; auto].
        right. right. intros k' g' Hin' Ee'. destruct (X Eg k' g' Hin' Ee') as (b & B). exists b.
        inversion Y as [f0 Y1 _]; subst f0. destruct (Y1 k' g' Hin' Ee') as (Y2 & _). now apply Y2. }
      apply fits_struct; auto.
      + eapply struct_no_ref; eauto.
      + eapply struct_is_object; eauto.
      + intros n. rewrite (properties_spec custom o names t' site f s Ho Hm) with (n := n); eauto.
        * unfold shown. split.
          -- intros (k & g & b & Hin & Ee & B & NS & NM & _). exists k, g, b. split; auto. split; auto. split; auto.
             destruct (Hb k g Hin Ee) as (Y & _). now apply Y.
          -- intros (k & g & b & Hin & Ee & B & NS & NM). exists k, g, b. split; auto. split; auto.
             destruct (Hb k g Hin Ee) as (Y & _). split; [now apply Y|]. split; auto. split; auto. eapply AB; eauto.
      + intros k g b Hin Ee B NS. destruct (Hn k g Hin Ee) as (T & _ & Z). destruct (Hb k g Hin Ee) as (Y & Y2).
        assert (D : componentToSchema (typeMapping custom) o names t' (k :: site) g <> None).
        { apply component_schema_iff; auto; [inversion Z; subst; auto|]. eapply AB; eauto. }
        destruct (componentToSchema (typeMapping custom) o names t' (k :: site) g) as [sc|] eqn:Esc; [|congruence].
        exists sc. split.
        * eapply (property_schema (typeMapping custom) o names t' site f s k g b sc); eauto; [now apply Y|].
          intros k' g' b' Hin' Ee' B' NS' NM. destruct (Hb k' g' Hin' Ee') as (Y' & _).
          apply (Hd k' g' b' k g b); auto. now apply Y'.
        * rewrite Forall_forall in IH. eapply (IH (k, g)); eauto. intros p n X. apply HI. now apply (nt_field f k g).
      + intros k g Hin Ee (c & Hcin & Cp & Cn). 
        assert (HS : forall c0, In c0 components -> f_package c0 = f_package g -> f_name c0 = f_type g -> has_name c0 t' /\ shares c0 t t').
        { intros c0 H0 P0 N0. apply (Hc (f_package g) (f_type g)); auto. now apply (nt_embedded f k g). }
        destruct (Hnamed c Hcin) as (r & Er); [now apply HS|]. rewrite Cp, Cn in Er.
        exists (refSchema r). split.
        * eapply (embedded_part (typeMapping custom) o names t' site f s k g r); eauto.
        * apply Hleaf; auto; [apply HI; now apply (nt_embedded f k g)|]. intros _ _ r' Er'. congruence.
    - rewrite component_to_schema_eq, HT in E. apply String.eqb_neq in ES. rewrite ES in E. apply String.eqb_neq in ES.
      destruct (String.eqb_spec (f_type f) "slice") as [E1|E1].
      { injection E as <-. eapply fits_slice; auto; try reflexivity. apply element_fits; [apply HI; now apply nt_slice|]. intros c0 H0 P0 N0.
        apply (Hc (f_package f) (f_sliceType f)); auto. now apply nt_slice. }
      destruct (String.eqb_spec (f_type f) "array") as [E2|E2].
      { injection E as <-. eapply fits_array; auto; try reflexivity. apply element_fits; [apply HI; now apply nt_array|]. intros c0 H0 P0 N0.
        apply (Hc (f_package f) (f_arrayType f)); auto. now apply nt_array. }
      destruct (String.eqb_spec (f_type f) "map") as [E3|E3].
      { injection E as <-. eapply fits_map; auto; try reflexivity. apply element_fits; [apply HI; now apply nt_map|]. intros c0 H0 P0 N0.
        apply (Hc (f_package f) (f_mapValueType f)); auto. now apply nt_map. }
      assert (NC : ~ compound (f_type f)).
      { intros [X|[X|[X|[X|[]]]]]; congruence. }
      destruct (IsAcceptedType (f_type f)) eqn:EA.
      + cbn [negb] in E. rewrite andb_false_r in E. injection E as <-. apply str_in_spec in EA. apply fits_builtin; auto.
        split; [apply predefined_no_ref|]. intros tf Etf. cbn. now apply predefined_builtin.
      + assert (NA : ~ In (f_type f) AcceptedTypes) by (intros X; apply str_in_spec in X; unfold IsAcceptedType in EA; congruence).
        apply fits_named; [now split|]. apply Hleaf; [apply HI, nt_name; now split| |].
        * intros c0 H0 P0 N0. apply (Hc (f_package f) (f_type f)); auto. apply nt_name. now split.
        * intros _ P r Er. cbv zeta in E. rewrite (predefined_unknown _ P) in E. cbn in E. rewrite Er in E. now injection E as <-.
  Qed.
End Fits.

Lemma unfolds_desc custom components d t n p typ doc s :
  unfolds custom components d t n p typ s -> unfolds custom components d t n p typ (set_desc doc s).
Proof. destruct n as [|n]; auto. Qed.

Lemma fits_desc components t (leaf : string -> string -> Schema -> Prop) f s doc : (forall p typ x, leaf p typ x -> leaf p typ (set_desc doc x)) ->
  fits components t leaf f s -> fits components t leaf f (set_desc doc s).
Proof.
  intros HL H. inversion H; subst.
  - apply fits_struct; auto.
  - eapply fits_slice; eauto.
  - eapply fits_array; eauto.
  - eapply fits_map; eauto.
  - apply fits_builtin; auto.
  - apply fits_named; auto.
Qed.

Lemma fits_doc custom components d t n c s :
  fits components t (unfolds custom components d t n) c s -> fits components t (unfolds custom components d t n) c (with_doc c s).
Proof. intros H. unfold with_doc. destruct (negb _); auto. apply fits_desc; auto. intros. now apply unfolds_desc. Qed.

Section Deep.
  Context (o : Orders) (custom : list (string * TypeFormat)) (config : option Config) (routes : list Route) (components : list Field)
          (d : Document) (names : list (string * string)) (level : string -> nat) (t : string).
  Hypothesis Ho : valid_orders o.
  Hypothesis Hp : parsed_components components.
  Hypothesis Hs : separated components level.
  Hypothesis Hpl : plain_names components level.
  Hypothesis HN : NoDup (map comp_key components).
  Hypothesis G : generated o custom config routes components [] d names.
  Hypothesis Ht : In t BindingTags.

  Lemma no_dot_unknown n : has_char "." n = false -> ~ In n AcceptedTypes -> mlookup n PredefinedTypeMap = None.
  Proof.
    intros D A. destruct (mlookup n PredefinedTypeMap) as [tf|] eqn:E; auto. exfalso.
    apply mlookup_In, (in_map fst) in E. simpl in E, A. intuition (subst; try discriminate; tauto).
  Qed.

  Lemma behind_unfolds c0 : (forall c, behind custom components c0 c -> faithful custom components t c) ->
    forall n c, In c components -> behind custom components c0 c ->
    forall name s, makeComponentRefName names t (f_name c) (f_package c) = Some name ->
      s_ref s = "#/components/schemas/" ++ name -> unfolds custom components d t n (f_package c) (f_name c) s.
  Proof.
    intros HF. destruct (generated_inv _ _ _ _ _ _ _ _ G) as (cfg & _ & En & _ & Ed).
    induction n as [|n IH]; intros c Hc HB name s Er Es; cbn [unfolds]; auto.
    intros c' Hc' P' N'.
    assert (c' = c). { apply (nodup_key_eq components); auto. unfold comp_key. congruence. } subst c'.
    destruct (HF c HB) as (HNm & HD & HA & HOA).
    assert (Hm : map_bindings (f_structFields c)) by (apply parsed_map_bindings, Hp, Hc).
    destruct (schema_stands o components names level Ho Hp Hs Hpl HN En custom c t name Hc Ht Er) as (t' & s0 & Ht' & Er' & Es0 & El).
    { intros site. now apply component_schema_iff. }
    rewrite <- Ed in El. exists name, (with_doc c s0). split; auto. split; auto.
    destruct (typeMapping custom (f_name c) (f_package c)) as [tf|] eqn:ET.
    - rewrite component_to_schema_eq, ET in Es0. injection Es0 as <-. unfold mapTypeFormat. rewrite ET. unfold with_doc.
      destruct (negb _); destruct (String.eqb_spec (tf_type tf) "") as [Z|Z]; cbn; split; auto; congruence.
    - destruct (HOA eq_refl) as (HO & HAl). apply fits_doc. destruct (same_name_shares o components names level Ho Hp Hpl HN En c t t' name Hc Ht Ht' Er Er') as (HN' & HSh).
      assert (HD' : describable custom t' c).
      { apply (component_schema_iff custom o names t' (site_of c t') c); auto. congruence. }
      refine (schema_fits o names custom components t t' _ (names_type c) Ho _ _ c _ s0 _ HO (HAl t' Ht' HD' HN' HSh) ET Es0); auto.
      + intros p typ x HI HC HX.
        assert (K : forall c2, In c2 components -> f_package c2 = p -> f_name c2 = typ -> unfolds custom components d t n p typ x).
        { intros c2 H2 P2 N2. subst p typ. assert (HB2 : behind custom components c0 c2) by (eapply behind_step; eauto).
          destruct (HF c2 HB2) as (HNm2 & _ & HA2 & _). destruct (HC c2 H2 eq_refl eq_refl) as (HNm2' & HS2).
          destruct (has_name_ref o components names level Ho Hp Hpl HN En c2 t H2 Ht HNm2) as (n2 & E2).
          apply (IH c2 H2 HB2 n2); auto.
          rewrite (shares_same_name o components names level Ho Hp Hpl HN En c2 t t' H2 Ht Ht' HNm2 HNm2' HS2) in E2.
          rewrite (HX HA2 (no_dot_unknown _ (proj1 (Hpl c2 H2)) HA2) ("#/components/schemas/" ++ n2)); auto.
          unfold makeComponentRef. now rewrite E2. }
        destruct n as [|n']; cbn [unfolds]; auto. intros c2 H2 P2 N2. exact (K c2 H2 P2 N2 c2 H2 P2 N2).
      + intros c2 H2 HN2. destruct (has_name_ref o components names level Ho Hp Hpl HN En c2 t' H2 Ht' HN2) as (n2 & E2).
        unfold makeComponentRef. rewrite E2. eauto.
  Qed.

  Lemma value_fits f : (forall c c', In c components -> value_names f (f_package c) (f_name c) -> behind custom components c c' ->
      faithful custom components t c') ->
    forall s n, mapFieldToSchema names t f = Some s -> value_unfolds custom components d t n f s.
  Proof.
    intros HF s n E. destruct (generated_inv _ _ _ _ _ _ _ _ G) as (cfg & _ & En & _ & _).
    assert (U : forall typ x, (~ In typ AcceptedTypes -> value_names f (f_package f) typ) -> ~ In typ AcceptedTypes ->
      (mlookup typ PredefinedTypeMap = None -> forall r, makeComponentRef names t typ (f_package f) = Some r -> x = refSchema r) ->
      unfolds custom components d t n (f_package f) typ x).
    { intros typ x HV HA HX.
      assert (K : forall c, In c components -> f_package c = f_package f -> f_name c = typ -> unfolds custom components d t n (f_package f) typ x).
      { intros c Hc Pc Nc. specialize (HV HA). rewrite <- Pc, <- Nc in HV.
        assert (HF' := HF c). destruct (HF' c Hc HV (behind_self _ _ c)) as (HNm & _).
        destruct (has_name_ref o components names level Ho Hp Hpl HN En c t Hc Ht HNm) as (n2 & E2).
        rewrite <- Pc, <- Nc. refine (behind_unfolds c _ n c Hc (behind_self _ _ c) n2 x E2 _).
        - intros c' B. apply HF'; auto.
        - rewrite <- Nc in HA, HX. rewrite (HX (no_dot_unknown _ (proj1 (Hpl c Hc)) HA) ("#/components/schemas/" ++ n2)); auto.
          unfold makeComponentRef. rewrite <- Pc, E2. reflexivity. }
      destruct n as [|n']; cbn [unfolds]; auto. intros c Hc Pc Nc. exact (K c Hc Pc Nc c Hc Pc Nc). }
    unfold value_unfolds. unfold mapFieldToSchema in E. destruct (IsAcceptedType (f_type f)) eqn:EA; cbn [negb] in E.
    - apply str_in_spec in EA. split; [intros X; contradiction|]. split.
      + intros ES. rewrite ES in E. cbn [String.eqb Ascii.eqb Bool.eqb] in E. injection E as <-. split; [reflexivity|]. split; [reflexivity|].
        eexists. split; [reflexivity|]. split.
        * intros A. assert (A' := A). apply str_in_spec in A'. unfold IsAcceptedType. rewrite A'. cbn [negb].
          split; [reflexivity|]. intros tf Etf. cbn. now apply predefined_builtin.
        * intros A. assert (A' : IsAcceptedType (f_sliceType f) = false).
          { destruct (IsAcceptedType (f_sliceType f)) eqn:X; auto. apply str_in_spec in X. contradiction. }
          rewrite A'. cbn [negb]. apply U; auto.
          { intros _. split; auto. }
          intros P r Er. now rewrite Er.
      + intros ES. rewrite ES in E. cbn [String.eqb Ascii.eqb Bool.eqb] in E. injection E as <-. split; [reflexivity|]. split; [reflexivity|].
        eexists. split; [reflexivity|]. split.
        * intros A. assert (A' := A). apply str_in_spec in A'. unfold IsAcceptedType. rewrite A'. cbn [negb]. apply predefined_builtin.
        * intros A. assert (A' : IsAcceptedType (f_mapValueType f) = false).
          { destruct (IsAcceptedType (f_mapValueType f)) eqn:X; auto. apply str_in_spec in X. contradiction. }
          rewrite A'. cbn [negb]. apply U; auto.
          { intros _. split; auto. }
          intros P r Er. now rewrite Er.
    - assert (NA : ~ In (f_type f) AcceptedTypes) by (intros X; apply str_in_spec in X; unfold IsAcceptedType in EA; congruence).
      split; [|split; intros ES; exfalso; apply NA; rewrite ES; simpl; tauto].
      intros _. apply U; auto.
      { intros _. split; auto. }
      intros _ r Er. rewrite Er in E. congruence.
  Qed.
End Deep.

Lemma alike_refl components t f : (forall c, In c components -> has_name c t) -> alike components t t f.
Proof.
  intros H. induction f as [f IH] using Field_ind'. constructor.
  - intros k g Hin _. split; [tauto|]. rewrite Forall_forall in IH. exact (IH (k, g) Hin).
  - intros p n c _ Hc _ _. split; auto. now left.
Qed.
