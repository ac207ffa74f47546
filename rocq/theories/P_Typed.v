(** Proofs about the schemas of Go types. *)
From Coq Require Import List String Ascii Bool ZArith Arith Relations Lia Permutation.
From Verif Require Import BaseStr BaseMap M_Types M_Tags S_Tags P_Tags M_Collect S_Collect M_Clean S_Clean P_Clean
  M_TypeTrav S_TypeTrav P_TypeTrav P_Fields M_OpenAPI S_Names P_Names S_OpenAPI P_OpenAPI P_Schema S_More S_Refs P_Refs S_Typed.
Import ListNotations.
Local Open Scope string_scope.
Local Arguments IsAcceptedType : simpl never.
Local Arguments substituteFor : simpl never.

(** ** Tags *)

Lemma tag_has_det tag k v v' : tag_has tag k v -> tag_has tag k v' -> v = v'.
Proof. intros H H'. apply lookup_spec in H, H'. congruence. Qed.

Lemma one_key {A} (m : list (string * A)) k : m <> [] -> NoDup (map fst m) -> (forall x a, In (x, a) m -> x = k) ->
  exists a, m = [(k, a)].
Proof.
  intros NE ND H. destruct m as [|[x a] m]; [congruence|]. exists a.
  assert (x = k) by (apply (H x a); now left). subst x.
  destruct m as [|[y b] m]; auto. exfalso. assert (y = k) by (apply (H y b); right; now left). subst y.
  inversion ND as [|? ? N _]; subst. apply N. now left.
Qed.

Lemma plain_binding t f : In t BindingTags -> plain_field t f -> gf_exported f = true -> gf_embedded f = false ->
  exists b, fst (ParseStructTag (gf_name f) (gf_tag f)) = [(t, b)] /\ b <> bt_zero /\
    forall n, member t f n <-> bt_notShown b = false /\ bt_name b = n.
Proof.
  intros Ht (Hn & H) X Ee. rewrite Ee in H. destruct H as (_ & Ho & v & Hv & C1 & C2).
  destruct (one_key (fst (ParseStructTag (gf_name f) (gf_tag f))) t) as (b & Eb).
  - apply parse_tag_not_nil.
  - apply parse_tag_keys.
  - intros x a Hin. apply parse_tag_in in Hin as [(v' & Hx & Hv' & _)|(-> & _ & N)]; eauto. exfalso. eapply N; eauto.
  - exists b. split; auto. assert (I : In (t, b) (fst (ParseStructTag (gf_name f) (gf_tag f)))) by (rewrite Eb; now left).
    split; [eapply parse_tag_nonzero; eauto|]. intros n.
    apply parse_tag_in in I as [(v' & _ & Hv' & ->)|(_ & _ & N)]; [|exfalso; eapply N; eauto].
    assert (v' = v) by (eapply tag_has_det; eauto). subst v'.
    pose proof (new_binding_encoder t (gf_name f) v C1 C2) as EN. split.
    + intros (_ & _ & v' & Hv2 & E). assert (v' = v) by (eapply tag_has_det; eauto). subst v'. now rewrite E in EN.
    + intros (S & N). split; auto. split; auto. exists v. split; auto.
      destruct (encoder_name t (gf_name f) v) as [x|]; [|congruence]. f_equal. destruct EN. congruence.
Qed.

Lemma embedded_binding t f : plain_field t f -> gf_embedded f = true ->
  exists b, fst (ParseStructTag (gf_name f) (gf_tag f)) = [(NoBindingTag, b)] /\ b <> bt_zero.
Proof.
  intros (Hn & H) Ee. rewrite Ee in H. destruct H as (_ & Ho).
  destruct (one_key (fst (ParseStructTag (gf_name f) (gf_tag f))) NoBindingTag) as (b & Eb).
  - apply parse_tag_not_nil.
  - apply parse_tag_keys.
  - intros x a Hin. apply parse_tag_in in Hin as [(v' & Hx & Hv' & _)|(-> & _ & N)]; auto. exfalso. eapply Ho; eauto.
  - exists b. split; auto. eapply (parse_tag_nonzero _ (gf_tag f) NoBindingTag); eauto. rewrite Eb. now left.
Qed.

(** ** Cleaning *)

Lemma nameless_kept p : substituteFor p "" = None.
Proof.
  unfold substituteFor, substituteTypes, mlookup. destruct (String.eqb p "") eqn:Ep; cbn [negb]; [reflexivity|].
  destruct (String.eqb_spec "time.Duration" (p ++ "." ++ "")) as [E|_].
  - symmetry in E. apply qualified_duration in E as [_ E]. discriminate.
  - destruct (String.eqb_spec "error" (p ++ "." ++ "")) as [E|_]; auto. symmetry in E. now apply qualified_error in E.
Qed.

Lemma substitute_cases p n : p <> "" -> substituteFor p n = None /\ p ++ "." ++ n <> "time.Duration" \/
  substituteFor p n = Some "int" /\ p ++ "." ++ n = "time.Duration".
Proof.
  intros Hp. unfold substituteFor, substituteTypes, mlookup. apply String.eqb_neq in Hp. rewrite Hp. cbn [negb].
  destruct (String.eqb_spec "time.Duration" (p ++ "." ++ n)) as [E|E]; auto.
  left. destruct (String.eqb_spec "error" (p ++ "." ++ n)) as [E'|_]; auto. symmetry in E'. now apply qualified_error in E'.
Qed.

Lemma clean_spoken main p : cleanPackage main p = spoken main p.
Proof. reflexivity. Qed.

(** ** The field of a type *)

Section Looks.
  Context (env : TypeEnv) (main : string).

  (** [kin T n p]: an element, by its name and package. *)
  Inductive kin : gtype -> string -> string -> Prop :=
  | kin_basic b k ty : In (b, ty) basic_types -> kin (GBasic b k) b ""
  | kin_any : kin GInterface "any" ""
  | kin_named id p : te_pkg env id = Some p -> ~ In (te_name env id) AcceptedTypes -> te_name env id <> "array" ->
      kin (GNamed id) (te_name env id) p
  | kin_pointer e n p : kin e n p -> kin (GPointer e) n p.

  Definition builtin_names : list string := "any" :: map fst basic_types.

  Lemma builtin_accepted n : In n builtin_names -> In n AcceptedTypes /\ ~ compound n.
  Proof.
    intros H. assert (F : forallb (fun n => IsAcceptedType n && negb (str_in n ["struct"; "slice"; "array"; "map"])) builtin_names = true) by reflexivity.
    rewrite forallb_forall in F. specialize (F n H). apply andb_prop in F as [A B]. split; [now apply accepted_spec|].
    intros C. unfold compound in C. apply str_in_spec in C. rewrite C in B. discriminate.
  Qed.

  Lemma basic_builtin b ty : In (b, ty) basic_types -> In b builtin_names.
  Proof. intros H. right. exact (in_map fst _ _ H). Qed.

  Lemma kin_elem T n p : kin T n p -> elem_of env T n p.
  Proof.
    induction 1 as [b k ty H| |id p Hp Hn _|e n p H IH].
    - constructor. now apply builtin_accepted, (basic_builtin b ty).
    - constructor.
    - now constructor.
    - now constructor.
  Qed.

  Lemma kin_cases T n p : kin T n p ->
    In n builtin_names \/
    (exists id, reach env true T (GNamed id) /\ te_pkg env id = Some p /\ n = te_name env id /\ ~ In n AcceptedTypes /\ ~ compound n).
  Proof.
    induction 1 as [b k ty H| |id p Hp Hn Ha|e n p H IH].
    - left. now apply (basic_builtin b ty).
    - left. now left.
    - right. exists id. split; [constructor|]. repeat (split; auto).
      intros [E|[E|[E|[E|[]]]]]; [| |congruence|]; apply Hn; rewrite <- E; simpl; tauto.
    - destruct IH as [IH|(id & R & IH)]; [now left|]. right. exists id. split; auto. econstructor; [constructor|exact R].
  Qed.

  Lemma element_kin e : element e ->
    (forall id, reach env true e (GNamed id) -> (exists p, te_pkg env id = Some p) /\ ~ In (te_name env id) AcceptedTypes /\ te_name env id <> "array") ->
    exists n p, kin e n p.
  Proof.
    induction 1 as [b k ty H| |id|e H IH]; intros HR.
    - exists b, "". econstructor; eauto.
    - exists "any", "". constructor.
    - destruct (HR id) as ((p & Hp) & Hn & Ha); [constructor|]. exists (te_name env id), p. now constructor.
    - destruct IH as (n & p & K); [|exists n, p; now constructor]. intros id R. apply HR. econstructor; [constructor|exact R].
  Qed.

  Lemma builtin_kin e : builtin_element e -> exists n, kin e n "" /\ In n builtin_names.
  Proof.
    induction 1 as [b k ty H| |e H (n & K & I)].
    - exists b. split; [econstructor; eauto|]. now apply (basic_builtin b ty).
    - exists "any". split; [constructor|now left].
    - exists n. split; [now constructor|auto].
  Qed.

  (** What the field of a type says of it. *)
  Definition within_package (n p : string) (g : Field) : Prop := ~ In n AcceptedTypes -> f_package g = spoken main p.
  Inductive looks : gtype -> Field -> Prop :=
  | lo_element T n p g : kin T n p -> f_type g = n -> within_package n p g -> looks T g
  | lo_slice e n p g : kin e n p -> f_type g = "slice" -> f_sliceType g = n -> within_package n p g -> looks (GSlice e) g
  | lo_array len e n p g : kin e n p -> f_type g = "array" -> f_arrayType g = n -> within_package n p g -> looks (GArray len e) g
  | lo_map k e n p g : kin e n p -> f_type g = "map" -> f_mapValueType g = n -> within_package n p g -> looks (GMap k e) g.

  Definition same_type (f g : Field) : Prop :=
    f_package f = f_package g /\ f_type f = f_type g /\ f_name f = f_name g /\ f_sliceType f = f_sliceType g /\
    f_arrayType f = f_arrayType g /\ f_mapValueType f = f_mapValueType g /\ f_structFields f = f_structFields g.

  Lemma field_same f r r' emb b v : field_doc f r = Ok r' ->
    same_type (ParseResultToField (res_with_tags emb b v r')) (ParseResultToField r).
  Proof.
    intros E. assert (X : r' = r \/ exists doc, r' = res_with_doc doc r).
    { unfold field_doc in E. destruct (q_package r) as [p|]; [|injection E as <-; auto].
      destruct (gf_at f p) as [[[|nm nms] doc|]|]; try discriminate; injection E as <-; eauto. }
    rewrite !parse_eq. unfold same_type, needs_package. destruct X as [->|(doc & ->)]; cbn; repeat split; auto.
  Qed.

  Lemma looks_same T f g : same_type f g -> looks T g -> looks T f.
  Proof.
    intros (P & Ty & _ & Sl & Ar & Mv & _) H.
    assert (W : forall n p, within_package n p g -> within_package n p f) by (unfold within_package; intros n p W N; rewrite P; auto).
    destruct H as [T n p g K E X|e n p g K E E2 X|len e n p g K E E2 X|k e n p g K E E2 X];
      [eapply lo_element|eapply lo_slice|eapply lo_array|eapply lo_map]; eauto; congruence.
  Qed.

  Definition flat_kin (T : gtype) : Prop :=
    (exists n p, kin T n p) \/ (exists e n p, T = GSlice e /\ kin e n p) \/ (exists len e n p, T = GArray len e /\ kin e n p) \/
    (exists k kn kp e n p, T = GMap k e /\ kin k kn kp /\ kin e n p).

  Lemma flat_flat_kin T : flat T ->
    (forall id, reach env true T (GNamed id) -> (exists p, te_pkg env id = Some p) /\ ~ In (te_name env id) AcceptedTypes /\ te_name env id <> "array") ->
    flat_kin T.
  Proof.
    intros H HR. destruct H as [e H|e H _|len e H|k e Hk H].
    - left. apply element_kin; auto.
    - right. left. destruct (element_kin e H) as (n & p & K); [|eauto 6]. intros id R. apply HR. econstructor; [constructor|exact R].
    - right. right. left. destruct (element_kin e H) as (n & p & K); [|eauto 7]. intros id R. apply HR. econstructor; [constructor|exact R].
    - right. right. right. destruct (element_kin k Hk) as (kn & kp & Kk).
      { intros id R. apply HR. econstructor; [apply part_key|exact R]. }
      destruct (element_kin e H) as (n & p & K); [|do 6 eexists; eauto]. intros id R. apply HR. econstructor; [apply part_value|exact R].
  Qed.

  Lemma clean_plain f : f_name f = "" -> f_structFields f = [] ->
    f_package (cleanField main f) = spoken main (f_package f) /\ f_type (cleanField main f) = f_type f /\
    f_name (cleanField main f) = "" /\ f_sliceType (cleanField main f) = f_sliceType f /\
    f_arrayType (cleanField main f) = f_arrayType f /\ f_mapValueType (cleanField main f) = f_mapValueType f /\
    f_structFields (cleanField main f) = [].
  Proof. intros N S. rewrite clean_field_eq, N, S, nameless_kept. cbn. repeat split; auto. Qed.

  Lemma type_looks T fuel add pkg l r f : flat_kin T -> TypeResult fuel env add pkg "" T = (l, Ok r) ->
    same_type f (ParseResultToField r) ->
    looks T (cleanField main f) /\ f_structFields (cleanField main f) = [] /\ f_name (cleanField main f) = "".
  Proof.
    intros H E (P & Ty & Nm & Sl & Ar & Mv & Sf).
    destruct (clean_plain f) as (C1 & C2 & C3 & C4 & C5 & C6 & C7).
    { rewrite Nm, parse_name. destruct H as [(n & p & K)|[(e & n & p & -> & K)|[(len & e & n & p & -> & K)|(k & kn & kp & e & n & p & -> & Kk & K)]]];
      rewrite <- parse_name.
      - now rewrite (field_value _ _ _ _ _ _ _ _ _ (kin_elem _ _ _ K) E).
      - now rewrite (field_slice _ _ _ _ _ _ _ _ _ (kin_elem _ _ _ K) E).
      - now destruct (field_array _ _ _ _ _ _ _ _ _ _ (kin_elem _ _ _ K) E) as (q & -> & _).
      - now rewrite (field_map _ _ _ _ _ _ _ _ _ _ _ _ (kin_elem _ _ _ Kk) (kin_elem _ _ _ K) E). }
    { rewrite Sf. destruct H as [(n & p & K)|[(e & n & p & -> & K)|[(len & e & n & p & -> & K)|(k & kn & kp & e & n & p & -> & Kk & K)]]].
      - now rewrite (field_value _ _ _ _ _ _ _ _ _ (kin_elem _ _ _ K) E).
      - now rewrite (field_slice _ _ _ _ _ _ _ _ _ (kin_elem _ _ _ K) E).
      - now destruct (field_array _ _ _ _ _ _ _ _ _ _ (kin_elem _ _ _ K) E) as (q & -> & _).
      - now rewrite (field_map _ _ _ _ _ _ _ _ _ _ _ _ (kin_elem _ _ _ Kk) (kin_elem _ _ _ K) E). }
    split; [|now split]. unfold within_package.
    destruct H as [(n & p & K)|[(e & n & p & -> & K)|[(len & e & n & p & -> & K)|(k & kn & kp & e & n & p & -> & Kk & K)]]].
    - rewrite (field_value _ _ _ _ _ _ _ _ _ (kin_elem _ _ _ K) E) in *. cbn in *. apply (lo_element T n p); [exact K|congruence|intros _; congruence].
    - rewrite (field_slice _ _ _ _ _ _ _ _ _ (kin_elem _ _ _ K) E) in *. cbn in *. apply (lo_slice e n p); [exact K|congruence|congruence|intros _; congruence].
    - destruct (field_array _ _ _ _ _ _ _ _ _ _ (kin_elem _ _ _ K) E) as (q & F & Hq). rewrite F in *. cbn in *.
      apply (lo_array len e n p); [exact K|congruence|congruence|intros N; now rewrite C1, P, (Hq N)].
    - rewrite (field_map _ _ _ _ _ _ _ _ _ _ _ _ (kin_elem _ _ _ Kk) (kin_elem _ _ _ K) E) in *. cbn in *.
      apply (lo_map k e n p); [exact K|congruence|congruence|intros _; congruence].
  Qed.

  (** The named types of such a field are those of the type. *)
  Lemma looks_names T g p n : looks T g -> names_type g p n -> ~ In n AcceptedTypes ->
    exists id q, reach env true T (GNamed id) /\ te_pkg env id = Some q /\ p = spoken main q /\ n = te_name env id.
  Proof.
    intros L N NA.
    assert (Kx : forall T' m q, kin T' m q -> within_package m q g -> p = f_package g -> n = m -> (forall id, reach env true T' (GNamed id) -> reach env true T (GNamed id)) ->
      exists id q, reach env true T (GNamed id) /\ te_pkg env id = Some q /\ p = spoken main q /\ n = te_name env id).
    { intros T' m q K W -> -> HR. destruct (kin_cases _ _ _ K) as [B|(id & R & Hq & -> & _)].
      - exfalso. apply NA. now apply builtin_accepted.
      - exists id, q. split; auto. }
    assert (NC : forall T' m q, kin T' m q -> f_type g = m -> ~ compound (f_type g)).
    { intros T' m q K ->. destruct (kin_cases _ _ _ K) as [B|(id & R & Hq & -> & _ & C)]; auto. now apply builtin_accepted. }
    unfold compound in NC. inversion L as [T' m q g' K Ty W|e m q g' K Ty El W|len e m q g' K Ty El W|k e m q g' K Ty El W]; subst g' T; try subst T'.
    - assert (C := NC _ _ _ K Ty). inversion N as [f [_ _]|f X|f X|f X|f k g0 X|f k g0 p' n' X]; subst; try (exfalso; apply C; rewrite X; simpl; tauto).
      eapply Kx; eauto.
    - inversion N as [f [_ X]|f X|f X|f X|f k g0 X|f k g0 p' n' X]; subst; try congruence; [exfalso; apply X; rewrite Ty; unfold compound; simpl; tauto|].
      eapply Kx; eauto. intros id R. econstructor; [constructor|exact R].
    - inversion N as [f [_ X]|f X|f X|f X|f k g0 X|f k g0 p' n' X]; subst; try congruence; [exfalso; apply X; rewrite Ty; unfold compound; simpl; tauto|].
      eapply Kx; eauto. intros id R. econstructor; [constructor|exact R].
    - inversion N as [f [_ X]|f X|f X|f X|f k0 g0 X|f k0 g0 p' n' X]; subst; try congruence; [exfalso; apply X; rewrite Ty; unfold compound; simpl; tauto|].
      eapply Kx; eauto. intros id R. econstructor; [apply part_value|exact R].
  Qed.
  Lemma looks_not_struct T g : looks T g -> f_type g <> "struct".
  Proof.
    intros L. inversion L as [T' m q g' K Ty W|e m q g' K Ty El W|len e m q g' K Ty El W|k e m q g' K Ty El W]; subst; try congruence.
    intros E. destruct (kin_cases _ _ _ K) as [B|(id & R & Hq & _ & _ & C)].
    - apply builtin_accepted in B as [_ C]. apply C. rewrite E. unfold compound. simpl. tauto.
    - apply C. rewrite E. unfold compound. simpl. tauto.
  Qed.
End Looks.

(** ** The component of a named type *)

Lemma result_fields n env add pkg name T l r : TypeResult n env add pkg name T = (l, Ok r) -> (forall e, T <> GPointer e) ->
  match T with
  | GStruct fs => q_type r = "struct" /\ exists m l1, struct_fields env (TypeResult m env add pkg "") fs = (l1, Ok (q_structFields r))
  | _ => q_structFields r = []
  end.
Proof.
  destruct n as [|n]; [discriminate|]. intros E NP.
  destruct T as [b k|id|e|e|len e|k e|fs| |]; cbn [TypeResult] in E; try (exfalso; eapply NP; reflexivity); wsplit;
    apply finish_ok in O; destruct O as [-> _]; try (destruct (String.eqb name ""); reflexivity).
  - assert (q_structFields a = []).
    { destruct (String.eqb name ""); [now injection O0 as <-|]. destruct pkg as [p|]; [|discriminate]. simpl in O0.
      destruct (te_loads env p); [|discriminate]. now injection O0 as <-. }
    destruct (String.eqb name ""); auto.
  - destruct (String.eqb name ""); cbn; eauto.
Qed.

Lemma forall2_left {A B} (P : A -> B -> Prop) l l' : Forall2 P l l' -> forall x, In x l -> exists y, In y l' /\ P x y.
Proof.
  induction 1 as [|a b l l' H F IH]; intros x [].
  - subst. exists b. split; [now left|auto].
  - destruct (IH x) as (y & Hy & Py); auto. exists y. split; [now right|auto].
Qed.
Lemma forall2_right {A B} (P : A -> B -> Prop) l l' : Forall2 P l l' -> forall y, In y l' -> exists x, In x l /\ P x y.
Proof.
  induction 1 as [|a b l l' H F IH]; intros y [].
  - subst. exists a. split; [now left|auto].
  - destruct (IH y) as (x & Hx & Px); auto. exists x. split; [now right|auto].
Qed.

Section Component.
  Context (env : TypeEnv) (main : string).

  (** The field of a struct field. *)
  Definition field_of (p : string) (f : gfield gtype) (k : string) (g : Field) : Prop :=
    k = gf_name f /\ exists m l r r', TypeResult m env true (Some p) "" (gf_type f) = (l, Ok r) /\ field_doc f r = Ok r' /\
      g = cleanField main (ParseResultToField (res_with_tags (gf_embedded f) (fst (ParseStructTag (gf_name f) (gf_tag f)))
                                                             (snd (ParseStructTag (gf_name f) (gf_tag f))) r')).

  Lemma field_of_parts p f k g : field_of p f k g -> f_isEmbedded g = gf_embedded f /\ f_bindingTags g = fst (ParseStructTag (gf_name f) (gf_tag f)).
  Proof.
    intros (_ & m & l & r & r' & _ & _ & ->). rewrite clean_field_eq. destruct (substituteFor _ _); rewrite parse_eq; cbn; auto.
  Qed.

  Lemma field_of_looks p f k g : field_of p f k g -> flat_kin env (gf_type f) ->
    looks env main (gf_type f) g /\ f_structFields g = [] /\ f_name g = "".
  Proof.
    intros (_ & m & l & r & r' & E & D & ->) K. eapply type_looks; eauto. now apply (field_same f).
  Qed.

  Definition component_of (id : nat) (c : Field) : Prop := exists x, definition_of env id x /\ c = cleanField main (ParseResultToField x).

  Lemma component_det id c c' : component_of id c -> component_of id c' -> c = c'.
  Proof. intros (x & D & ->) (x' & D' & ->). now rewrite (definition_det _ _ _ _ D D'). Qed.

  Lemma component_analysed id c : component_of id c -> analysed env id.
  Proof. intros (x & (p & n & l & u & Hp & E & _) & _). exists p, n, l, u. auto. Qed.

  Lemma component_key id c p : component_of id c -> te_pkg env id = Some p -> te_name env id <> "" -> at_home env id ->
    f_name c = te_name env id /\ f_package c = spoken main p.
  Proof.
    intros (x & D & ->) Hp Hn Hh. destruct (definition_key _ _ _ _ D Hp Hn Hh) as [K1 K2].
    rewrite clean_field_name, clean_field_package, K1, K2. auto.
  Qed.

  Lemma component_fields id c p : component_of id c -> te_pkg env id = Some p -> at_home env id ->
    forall k g, In (k, g) (f_structFields c) -> exists fs f, te_under env id = GStruct fs /\ In f fs /\ gf_exported f = true /\ field_of p f k g.
  Proof.
    intros (x & (p' & n & l & u & Hp' & E & ->) & ->) Hp [NP _] k g Hin. assert (p' = p) by congruence. subst p'.
    assert (F := result_fields _ _ _ _ _ _ _ _ E NP). rewrite clean_field_eq in Hin.
    destruct (substituteFor _ _) as [s|]; [destruct Hin|]. cbn [f_structFields] in Hin. rewrite parse_eq in Hin. cbn [f_structFields res_with_doc q_structFields] in Hin.
    rewrite map_map in Hin. apply in_map_iff in Hin as (kv & Ekv & Hin). cbn [fst snd] in Ekv. injection Ekv as <- <-.
    destruct (te_under env id) as [b kk|i|e|e|len e|kk e|fs| |]; try (rewrite F in Hin; destruct Hin).
    destruct F as (_ & m & l1 & F). apply struct_fields_entries in F.
    destruct (forall2_right _ _ _ F _ Hin) as (f & Hf & lz & r & r' & E1 & E2 & ->). apply filter_In in Hf as [Hf X].
    exists fs, f. split; auto. split; auto. split; auto. split; auto. do 4 eexists; eauto.
  Qed.

  Lemma component_struct id c p fs : component_of id c -> te_pkg env id = Some p -> te_name env id <> "" -> at_home env id -> p <> "" ->
    te_under env id = GStruct fs -> p ++ "." ++ te_name env id <> "time.Duration" ->
    f_type c = "struct" /\ forall f, In f fs -> gf_exported f = true -> exists g, In (gf_name f, g) (f_structFields c) /\ field_of p f (gf_name f) g.
  Proof.
    intros (x & D & ->) Hp Hn Hh Hp0 Hu ND. destruct (definition_key _ _ _ _ D Hp Hn Hh) as [K1 K2].
    destruct D as (p' & n & l & u & Hp' & E & ->). assert (p' = p) by congruence. subst p'. destruct Hh as [NP _].
    assert (F := result_fields _ _ _ _ _ _ _ _ E NP). rewrite Hu in F. destruct F as (Ty & m & l1 & F).
    rewrite clean_field_eq, K1, K2. destruct (substitute_cases p (te_name env id) Hp0) as [[-> _]|[_ X]]; [|contradiction].
    split; [rewrite parse_eq; exact Ty|]. intros f Hf X. apply struct_fields_entries in F.
    destruct (forall2_left _ _ _ F f) as (kv & Hkv & lz & r & r' & E1 & E2 & ->); [apply filter_In; auto|].
    eexists. split; [cbn [f_structFields]; rewrite parse_eq; cbn [f_structFields res_with_doc q_structFields]; rewrite map_map; apply in_map_iff; eexists; split; [|exact Hkv]; reflexivity|].
    split; auto. do 4 eexists; eauto.
  Qed.

  (** The components of other types. *)
  Lemma component_other id c p : component_of id c -> te_pkg env id = Some p -> te_name env id <> "" -> at_home env id -> p <> "" ->
    (forall fs, te_under env id <> GStruct fs) -> f_structFields c = [].
  Proof.
    intros D Hp Hn Hh Hp0 NS. destruct (f_structFields c) as [|[k g] r] eqn:E; auto. exfalso.
    destruct (component_fields id c p D Hp Hh k g) as (fs & f & Hu & _); [rewrite E; now left|]. eapply NS; eauto.
  Qed.

  Lemma component_simple id c p : component_of id c -> te_pkg env id = Some p -> te_name env id <> "" -> at_home env id -> p <> "" ->
    f_structFields c = [] /\ (p ++ "." ++ te_name env id = "time.Duration" /\ f_type c = "int" \/
      p ++ "." ++ te_name env id <> "time.Duration" /\
      match te_under env id with
      | GBasic b _ => f_type c = b
      | GInterface => f_type c = "any"
      | GSlice e => f_type c = "slice" /\ (forall n, kin env e n "" -> f_sliceType c = n)
      | GArray _ e => f_type c = "array" /\ (forall n, kin env e n "" -> f_arrayType c = n)
      | GMap k e => f_type c = "map" /\ (forall n, kin env e n "" -> f_mapValueType c = n)
      | GStruct _ => False
      | _ => True
      end) \/ exists fs, te_under env id = GStruct fs.
  Proof.
    intros D Hp Hn Hh Hp0. destruct (te_under env id) as [b kk|i|e|e|len e|kk e|fs| |] eqn:Hu; [| | | | | |right; eauto| |]; left;
    (split; [eapply component_other; eauto; intros; rewrite Hu; discriminate|]);
    destruct D as (x & D & ->); destruct (definition_key _ _ _ _ D Hp Hn Hh) as [K1 K2]; rewrite clean_field_eq, K1, K2;
    (destruct (substitute_cases p (te_name env id) Hp0) as [[-> X]|[-> X]]; [right|left; split; auto]); (split; [exact X|]); auto;
    destruct D as (p' & n & l & u & Hp' & E & ->); rewrite Hu in E; destruct n as [|n]; try discriminate; cbn [TypeResult] in E; wsplit;
    apply finish_ok in O; destruct O as [-> _]; apply String.eqb_neq in Hn; rewrite Hn; rewrite parse_eq; cbn; auto.
    - rewrite Hn in O0. destruct (Get env (Some p')) eqn:G; try discriminate. cbn in O0. now injection O0 as <-.
    - split; auto. intros m K. apply kin_elem in K. match goal with H : TypeResult _ _ _ _ _ e = _ |- _ => destruct (elem_result _ _ _ _ K _ _ _ _ _ H) as [(-> & _)|(-> & _)] end; reflexivity.
    - split; auto. intros m K. apply kin_elem in K. match goal with H : TypeResult _ _ _ _ _ e = _ |- _ => destruct (elem_result _ _ _ _ K _ _ _ _ _ H) as [(-> & _)|(-> & _)] end; reflexivity.
    - split; auto. intros m K. apply kin_elem in K. match goal with H : TypeResult _ _ _ _ _ e = _ |- _ => destruct (elem_result _ _ _ _ K _ _ _ _ _ H) as [(-> & _)|(-> & _)] end; reflexivity.
  Qed.
End Component.

Lemma reach_trans env follow a b c : reach env follow a b -> reach env follow b c -> reach env follow a c.
Proof. unfold reach. induction 1 as [x|x y z Hp Hr IH]; auto. intros H. econstructor; eauto. Qed.

Lemma embeddable_element T : embeddable T -> element T.
Proof. induction 1; constructor; auto. Qed.

Lemma looks_embedded env main T g : looks env main T g -> embeddable T ->
  exists id q, reach env true T (GNamed id) /\ te_pkg env id = Some q /\ f_package g = spoken main q /\ f_type g = te_name env id.
Proof.
  intros L Em. inversion L as [T' m q g' K Ty W|e m q g' K Ty El W|len e m q g' K Ty El W|k e m q g' K Ty El W]; subst;
    try (inversion Em; fail).
  assert (NB : ~ In (f_type g) builtin_names).
  { clear - K Em. revert K. generalize (f_type g). induction Em as [id|e Em IH]; intros m K; inversion K; subst; auto.
    intros B. apply builtin_accepted in B as [B _]. contradiction. }
  destruct (kin_cases _ _ _ _ K) as [B|(id & R & Hq & E & NA & _)]; [contradiction|]. exists id, q. auto.
Qed.

Lemma basic_predefined b ty : In (b, ty) basic_types -> exists tf, mlookup b PredefinedTypeMap = Some tf /\ tf_type tf = ty.
Proof.
  intros H. assert (F : forallb (fun x => match mlookup (fst x) PredefinedTypeMap with Some tf => String.eqb (tf_type tf) (snd x) | None => false end) basic_types = true) by reflexivity.
  rewrite forallb_forall in F. specialize (F _ H). cbn [fst snd] in F. destruct (mlookup b PredefinedTypeMap) as [tf|]; [|discriminate].
  exists tf. split; auto. now apply String.eqb_eq.
Qed.

Section Static.
  Context (env : TypeEnv) (custom : list (string * TypeFormat)) (main t : string) (used : nat -> Prop) (level : string -> nat)
          (o : Orders) (config : option Config) (routes : list Route) (components : list Field) (d : Document) (names : list (string * string))
          (T0 : gtype).
  Hypothesis Ho : valid_orders o.
  Hypothesis Hown : forall c, In c components -> exists id, used id /\ component_of env main id c.
  Hypothesis Hdist : distinct_types env main used.
  Hypothesis Hname : nameable env main used level.
  Hypothesis Hmap : named_mappings custom.
  Hypothesis HN : NoDup (map comp_key components).
  Hypothesis G : generated o custom config routes components [] d names.
  Hypothesis Ht : In t BindingTags.
  Hypothesis Hall : forall id p, reach env true T0 (GNamed id) -> te_pkg env id = Some p ->
    used id /\ exists c, In c components /\ component_of env main id c.
  Hypothesis Htr : forall id, reach env true T0 (GNamed id) -> plain_named env custom main t id.

  Definition known (id : nat) (p : string) : Prop :=
    te_pkg env id = Some p /\ p <> "" /\ te_name env id <> "" /\ ~ In (te_name env id) AcceptedTypes /\ at_home env id /\
    (forall fs f, te_under env id = GStruct fs -> In f fs -> gf_name f <> "").

  Lemma used_known id c : used id -> component_of env main id c -> exists p, known id p.
  Proof.
    intros U C. assert (A := component_analysed _ _ _ _ C). assert (A' := A). destruct A' as (p & n & l & u & Hp & _).
    exists p. split; auto. exact (proj1 Hdist id p U A Hp).
  Qed.

  Lemma own c : In c components -> exists id p, used id /\ component_of env main id c /\ known id p /\
    f_name c = te_name env id /\ f_package c = spoken main p.
  Proof.
    intros Hc. destruct (Hown c Hc) as (id & U & C). destruct (used_known id c U C) as (p & K).
    exists id, p. split; auto. split; auto. split; auto. destruct K as (Hp & _ & Hn & _ & Hh & _). eapply component_key; eauto.
  Qed.

  Lemma parsed_all : parsed_components components.
  Proof.
    intros c Hc k g Hin. destruct (own c Hc) as (id & p & U & C & (Hp & _ & _ & _ & Hh & Hf) & _).
    destruct (component_fields _ _ _ _ _ C Hp Hh k g Hin) as (fs & f & Hu & Hin' & X & F).
    destruct (field_of_parts _ _ _ _ _ _ F) as (_ & B). exists (gf_name f), (gf_tag f). rewrite B. split; [eapply Hf; eauto|apply Permutation_refl].
  Qed.

  Lemma separated_all : separated components level.
  Proof.
    intros c1 c2 H1 H2. destruct (own c1 H1) as (i & p & U1 & C1 & K1 & _ & ->). destruct (own c2 H2) as (j & q & U2 & C2 & K2 & _ & ->).
    apply (proj1 Hname i j p q); auto; try (eapply component_analysed; eauto); [apply K1|apply K2].
  Qed.

  Lemma plain_all : plain_names components level.
  Proof.
    intros c Hc. destruct (own c Hc) as (i & p & U & C & K & -> & ->). apply (proj2 Hname i p); auto; [eapply component_analysed; eauto|apply K].
  Qed.

  Lemma component_known id c : In c components -> reach env true T0 (GNamed id) ->
    forall p, te_pkg env id = Some p -> f_package c = spoken main p -> f_name c = te_name env id -> component_of env main id c.
  Proof.
    intros Hc R p Hp P N. destruct (own c Hc) as (j & q & U & C & K & Nj & Pj).
    destruct (Hall id p R Hp) as (Ui & ci & _ & Ci).
    assert (j = id); [|now subst].
    apply (proj2 Hdist j id q p); auto; try (eapply component_analysed; eauto); [apply K|congruence|congruence].
  Qed.

  Lemma reached id : reach env true T0 (GNamed id) -> exists p c, known id p /\ In c components /\ component_of env main id c /\
    f_name c = te_name env id /\ f_package c = spoken main p.
  Proof.
    intros R. destruct (Htr id R) as (p & Hp & _). destruct (Hall id p R Hp) as (U & c & Hc & C).
    destruct (used_known id c U C) as (p' & K). assert (p' = p) by (destruct K; congruence). subst p'.
    exists p, c. split; auto. split; auto. split; auto. destruct K as (_ & _ & Hn & _ & Hh & _). eapply component_key; eauto.
  Qed.

  Lemma good_ids T : reach env true T0 T -> forall id, reach env true T (GNamed id) ->
    (exists p, te_pkg env id = Some p) /\ ~ In (te_name env id) AcceptedTypes /\ te_name env id <> "array".
  Proof.
    intros RT id R. assert (R0 := reach_trans _ _ _ _ _ RT R). destruct (reached id R0) as (p & c & K & _).
    destruct (Htr id R0) as (p' & Hp' & NA & _). split; [eauto|]. split; auto. apply K.
  Qed.

  Lemma field_reached id p fs f : reach env true T0 (GNamed id) -> te_pkg env id = Some p -> te_under env id = GStruct fs ->
    In f fs -> gf_exported f = true -> reach env true T0 (gf_type f).
  Proof.
    intros R Hp Hu Hin X. apply (reach_trans _ _ _ _ _ R). econstructor; [eapply part_named; eauto|].
    rewrite Hu. econstructor; [apply part_field; eauto|constructor].
  Qed.

  Lemma field_flat id p fs f : reach env true T0 (GNamed id) -> te_pkg env id = Some p -> te_under env id = GStruct fs ->
    In f fs -> gf_exported f = true -> plain_field t f -> flat_kin env (gf_type f).
  Proof.
    intros R Hp Hu Hin X (_ & H). apply flat_flat_kin.
    - destruct (gf_embedded f); [apply fl_element, embeddable_element|]; apply H.
    - apply good_ids. eapply field_reached; eauto.
  Qed.

  (** What is known of a component that is not mapped. *)
  Lemma unmapped id p c : reach env true T0 (GNamed id) -> known id p -> component_of env main id c ->
    typeMapping custom (te_name env id) (spoken main p) = None ->
    (exists fs, te_under env id = GStruct fs /\ plain_struct t fs /\ f_type c = "struct" /\
       (forall k g, In (k, g) (f_structFields c) -> exists f, In f fs /\ gf_exported f = true /\ field_of env main p f k g) /\
       (forall f, In f fs -> gf_exported f = true -> exists g, In (gf_name f, g) (f_structFields c) /\ field_of env main p f (gf_name f) g)) \/
    (f_structFields c = [] /\
       ((exists b k ty, te_under env id = GBasic b k /\ In (b, ty) basic_types /\ (f_type c = b \/ (f_type c = "int" /\ In (b, "integer") basic_types))) \/
        (te_under env id = GInterface /\ f_type c = "any") \/
        (exists e n, te_under env id = GSlice e /\ kin env e n "" /\ In n builtin_names /\ f_type c = "slice" /\ f_sliceType c = n) \/
        (exists len e n, te_under env id = GArray len e /\ kin env e n "" /\ In n builtin_names /\ f_type c = "array" /\ f_arrayType c = n) \/
        (exists k e n, te_under env id = GMap k e /\ kin env e n "" /\ In n builtin_names /\ f_type c = "map" /\ f_mapValueType c = n))).
  Proof.
    intros R (Hp & Hp0 & Hn & NA & Hh & Hf) C HM. destruct (Htr id R) as (p' & Hp' & _ & [(X & _)|(_ & PD & DU)]).
    { assert (p' = p) by congruence. subst p'. contradiction. }
    assert (p' = p) by congruence. subst p'.
    destruct (component_simple env main id c p C Hp Hn Hh Hp0) as [(F & S)|(fs & Hu)].
    - right. split; auto. destruct S as [(D & Ty)|(ND & S)].
      + destruct (DU D) as (b & k & Hu & I). left. exists b, k, "integer". split; auto.
      + destruct (te_under env id) as [b k|i|e|e|len e|k e|fs| |] eqn:Hu; cbn [plain_definition] in PD; try contradiction.
        * destruct PD as (ty & I). left. exists b, k, ty. auto.
        * destruct PD as (B & _). destruct (builtin_kin env e B) as (n & K & I). destruct S as (S1 & S2). right. right. left. exists e, n. auto 6.
        * destruct (builtin_kin env e PD) as (n & K & I). destruct S as (S1 & S2). right. right. right. left. exists len, e, n. auto 7.
        * destruct PD as (_ & B). destruct (builtin_kin env e B) as (n & K & I). destruct S as (S1 & S2). right. right. right. right. exists k, e, n. auto 7.
        * auto.
    - left. exists fs. rewrite Hu in PD. assert (ND : p ++ "." ++ te_name env id <> "time.Duration").
      { intros D. destruct (DU D) as (b & k & Hu' & _). congruence. }
      destruct (component_struct env main id c p fs C Hp Hn Hh Hp0 Hu ND) as (Ty & FF).
      split; auto. split; auto. split; auto. split; auto. intros k g Hin.
      destruct (component_fields _ _ _ _ _ C Hp Hh k g Hin) as (fs' & f & Hu' & Hin' & X & F). assert (fs' = fs) by congruence. subst. eauto.
  Qed.

  Lemma no_fields_named c : f_structFields c = [] -> has_name c t.
  Proof. intros E. left. right. split; auto. intros (t' & k & f & b & X & _). rewrite E in X. destruct X. Qed.

  Lemma mapped_fields id p c : reach env true T0 (GNamed id) -> known id p -> component_of env main id c ->
    typeMapping custom (te_name env id) (spoken main p) <> None -> f_structFields c = [].
  Proof.
    intros R (Hp & _ & _ & _ & Hh & _) C HM. destruct (f_structFields c) as [|[k g] r] eqn:E; auto. exfalso.
    destruct (component_fields _ _ _ _ _ C Hp Hh k g) as (fs & f & Hu & Hin & X & _); [rewrite E; now left|].
    destruct (Htr id R) as (p' & Hp' & _ & [(_ & _ & O)|(X' & _)]).
    - rewrite (O fs f Hu Hin) in X. discriminate.
    - assert (p' = p) by congruence. subst p'. contradiction.
  Qed.

  Lemma reached_named id c : reach env true T0 (GNamed id) -> component_of env main id c -> has_name c t.
  Proof.
    intros R C. destruct (reached id R) as (p & c' & K & _).
    destruct (typeMapping custom (te_name env id) (spoken main p)) as [tf|] eqn:HM.
    { apply no_fields_named. eapply mapped_fields; eauto. congruence. }
    destruct (unmapped id p c R K C HM) as [(fs & Hu & (HP & HO & _) & _ & HF & HF')|(E & _)]; [|now apply no_fields_named].
    destruct HO as [HO|(f & Hin & X & Ee)].
    - apply no_fields_named. destruct (f_structFields c) as [|[k g] r] eqn:E; auto. exfalso.
      destruct (HF k g) as (f & Hin & X & _); [now left|]. rewrite (HO f Hin) in X. discriminate.
    - left. left. destruct (HF' f Hin X) as (g & Hg & F). destruct (plain_binding t f Ht (HP f Hin X) X Ee) as (b & B & _).
      exists (gf_name f), g, b. split; auto. rewrite (proj2 (field_of_parts _ _ _ _ _ _ F)), B. now left.
  Qed.

  (** The named types in a component are reached. *)
  Lemma reached_names id p c q m : reach env true T0 (GNamed id) -> known id p -> component_of env main id c ->
    typeMapping custom (te_name env id) (spoken main p) = None -> names_type c q m -> ~ In m AcceptedTypes ->
    exists id' p', reach env true T0 (GNamed id') /\ te_pkg env id' = Some p' /\ q = spoken main p' /\ m = te_name env id'.
  Proof.
    intros R K C HM N NA. assert (Hp := proj1 K).
    destruct (unmapped id p c R K C HM) as [(fs & Hu & (HP & _) & Ty & HF & _)|(E & S)].
    - inversion N as [f [_ X]|f X|f X|f X|f k g X Hin Ee|f k g q' m' X Hin Ee N']; subst; try congruence.
      + exfalso. apply X. rewrite Ty. unfold compound. simpl. tauto.
      + destruct (HF k g Hin) as (f & Hf & Xf & F). assert (P := HP f Hf Xf).
        destruct (field_of_looks _ _ _ _ _ _ F (field_flat id p fs f R Hp Hu Hf Xf P)) as (L & _).
        rewrite (proj1 (field_of_parts _ _ _ _ _ _ F)) in Ee. destruct P as (_ & P). rewrite Ee in P.
        destruct (looks_embedded _ _ _ _ L (proj1 P)) as (id' & p' & R' & Hp' & Q & M). exists id', p'. split; auto.
        eapply reach_trans; [|exact R']. eapply field_reached; eauto.
      + destruct (HF k g Hin) as (f & Hf & Xf & F). assert (P := HP f Hf Xf).
        destruct (field_of_looks _ _ _ _ _ _ F (field_flat id p fs f R Hp Hu Hf Xf P)) as (L & _).
        destruct (looks_names _ _ _ _ _ _ L N' NA) as (id' & p' & R' & Hp' & Q & M). exists id', p'. split; auto.
        eapply reach_trans; [|exact R']. eapply field_reached; eauto.
    - exfalso. assert (BA : forall n, In n builtin_names -> ~ named_type n).
      { intros n B [X _]. apply X. now apply builtin_accepted. }
      assert (NC : forall n, In n builtin_names -> n <> "struct" /\ n <> "slice" /\ n <> "array" /\ n <> "map").
      { intros n B. apply builtin_accepted in B as [_ B]. unfold compound in B. simpl in B. intuition congruence. }
      assert (Simple : In (f_type c) builtin_names -> False).
      { intros B. destruct (NC _ B) as (N1 & N2 & N3 & N4). inversion N; subst; try contradiction. eapply BA; eauto. }
      destruct S as [(b & k & ty & _ & I & [Ty|(Ty & _)])|[(_ & Ty)|[(e & n & _ & _ & B & Ty & El)|[(len & e & n & _ & _ & B & Ty & El)|(k & e & n & _ & _ & B & Ty & El)]]]].
      + apply Simple. rewrite Ty. now apply (basic_builtin b ty).
      + apply Simple. rewrite Ty. apply (basic_builtin "int" "integer"). simpl. tauto.
      + apply Simple. rewrite Ty. now left.
      + inversion N as [f [_ X]|f X|f X|f X|f k g X|f k g q' m' X]; subst; try congruence; [apply X; rewrite Ty; unfold compound; simpl; tauto|].
        apply NA. now apply builtin_accepted.
      + inversion N as [f [_ X]|f X|f X|f X|f k g X|f k g q' m' X]; subst; try congruence; [apply X; rewrite Ty; unfold compound; simpl; tauto|].
        apply NA. now apply builtin_accepted.
      + inversion N as [f [_ X]|f X|f X|f X|f k0 g X|f k0 g q' m' X]; subst; try congruence; [apply X; rewrite Ty; unfold compound; simpl; tauto|].
        apply NA. now apply builtin_accepted.
  Qed.

  Lemma component_not_accepted c : In c components -> ~ In (f_name c) AcceptedTypes.
  Proof. intros Hc. destruct (own c Hc) as (id & p & _ & _ & (_ & _ & _ & NA & _) & -> & _). auto. Qed.

  Lemma reached_behind c0 c : behind custom components c0 c -> forall id0, reach env true T0 (GNamed id0) -> In c0 components -> component_of env main id0 c0 ->
    exists id, reach env true T0 (GNamed id) /\ In c components /\ component_of env main id c.
  Proof.
    induction 1 as [c|c1 c2 c3 B IH HM N Hc3]; intros id0 R0 H0 C0; [eauto|].
    destruct (IH id0 R0 H0 C0) as (id2 & R2 & H2 & C2). destruct (reached id2 R2) as (p & c' & K & _).
    assert (Key := component_key _ _ _ _ p C2 (proj1 K) (proj1 (proj2 (proj2 K))) (proj1 (proj2 (proj2 (proj2 (proj2 K)))))).
    destruct Key as (K1 & K2). rewrite K1, K2 in HM.
    destruct (reached_names id2 p c2 _ _ R2 K C2 HM N (component_not_accepted c3 Hc3)) as (id3 & p3 & R3 & Hp3 & Q & M).
    exists id3. split; auto. split; auto. eapply component_known; eauto.
  Qed.

  Lemma names_named id p c q m c2 : reach env true T0 (GNamed id) -> known id p -> component_of env main id c ->
    typeMapping custom (te_name env id) (spoken main p) = None -> names_type c q m ->
    In c2 components -> f_package c2 = q -> f_name c2 = m -> has_name c2 t.
  Proof.
    intros R K C HM N H2 P2 N2. subst q m.
    destruct (reached_names id p c _ _ R K C HM N (component_not_accepted c2 H2)) as (id2 & p2 & R2 & Hp2 & Q & M).
    apply (reached_named id2); auto. eapply component_known; eauto.
  Qed.

  Lemma own_binding p f k g : gf_exported f = true -> plain_field t f -> field_of env main p f k g -> f_isEmbedded g = false ->
    exists b, gf_embedded f = false /\ f_bindingTags g = [(t, b)] /\ (forall n, member t f n <-> bt_notShown b = false /\ bt_name b = n) /\
      forall b', binds t g b' <-> b' = b.
  Proof.
    intros Xf P F Ee. assert (TN : t <> NoBindingTag) by now apply tag_not_empty.
    destruct (field_of_parts _ _ _ _ _ _ F) as (F1 & F2).
    rewrite F1 in Ee. destruct (plain_binding t f Ht P Xf Ee) as (b & B & Z & M). exists b.
    split; auto. split; [congruence|]. split; auto.
    intros b'. unfold binds, has_binding. rewrite F2, B. cbn. split.
    - intros [([X|[]] & _)|(_ & [X|[]] & _)]; [congruence|]. exfalso. apply TN. congruence.
    - intros ->. left. auto.
  Qed.

  Lemma faithful_reached id c : reach env true T0 (GNamed id) -> In c components -> component_of env main id c -> faithful custom components t c.
  Proof.
    intros R Hc C. destruct (reached id R) as (p & c' & K & _).
    assert (TN : t <> NoBindingTag) by now apply tag_not_empty.
    assert (Key := component_key _ _ _ _ p C (proj1 K) (proj1 (proj2 (proj2 K))) (proj1 (proj2 (proj2 (proj2 (proj2 K)))))).
    destruct Key as (K1 & K2). split; [eapply reached_named; eauto|].
    destruct (typeMapping custom (te_name env id) (spoken main p)) as [tf|] eqn:HM.
    { split; [left; rewrite K1, K2, HM; discriminate|]. split; [now apply component_not_accepted|]. rewrite K1, K2, HM. discriminate. }
    destruct (unmapped id p c R K C HM) as [(fs & Hu & (HP & HO & HU) & Ty & HF & HF')|(E & S)].
    - assert (HB : forall k g, In (k, g) (f_structFields c) -> f_isEmbedded g = false ->
        exists f b, In f fs /\ gf_exported f = true /\ gf_embedded f = false /\ k = gf_name f /\ field_of env main p f k g /\ f_bindingTags g = [(t, b)] /\
          (forall n, member t f n <-> bt_notShown b = false /\ bt_name b = n) /\ forall b', binds t g b' <-> b' = b).
      { intros k g Hin Ee. destruct (HF k g Hin) as (f & Hf & Xf & F). destruct (own_binding p f k g Xf (HP f Hf Xf) F Ee) as (b & E & B).
        exists f, b. split; auto. split; auto. split; auto. split; [apply F|]. auto. }
      assert (FG : forall k g, In (k, g) (f_structFields c) -> f_structFields g = [] /\ f_name g = "" /\ f_type g <> "struct").
      { intros k g Hin. destruct (HF k g Hin) as (f & Hf & Xf & F).
        destruct (field_of_looks _ _ _ _ _ _ F (field_flat id p fs f R (proj1 K) Hu Hf Xf (HP f Hf Xf))) as (L & S & N). split; auto. split; auto.
        eapply looks_not_struct; eauto. }
      assert (OG : forall k g, In (k, g) (f_structFields c) -> orderly custom t g).
      { intros k g Hin. destruct (FG k g Hin) as (S & _). constructor; rewrite S; [intros ? ? []|intros ? ? []|intros ? ? ? ? ? ? []|intros ? ? []]. }
      split; [|split; [now apply component_not_accepted|intros _; split]].
      + right. right. intros k g Hin Ee. destruct (HB k g Hin Ee) as (f & b & _ & _ & _ & _ & _ & _ & _ & B). exists b. now apply B.
      + constructor.
        * apply parsed_map_bindings. now apply parsed_all.
        * intros k g Hin. destruct (FG k g Hin) as (-> & _). intros ? ? [].
        * intros k g b k' g' b' Hin Hin' Ee Ee' B B' S S' E.
          destruct (HB k g Hin Ee) as (f & b0 & Hf & Xf & Ef & Ek & F & _ & M & BB). apply BB in B. subst b0.
          destruct (HB k' g' Hin' Ee') as (f' & b0 & Hf' & Xf' & Ef' & Ek' & F' & _ & M' & BB'). apply BB' in B'. subst b0.
          assert (f = f'). { apply (HU f f' (bt_name b)); auto; [now apply M|apply M'; auto]. }
          subst f'. split; [congruence|]. subst k k'.
          destruct F as (_ & m & l & r & r' & E1 & E2 & ->). destruct F' as (_ & m' & l' & r1 & r1' & E1' & E2' & ->).
          destruct (type_det _ _ _ _ _ _ _ _ _ _ _ E1 E1') as (_ & ->). rewrite E2 in E2'. now injection E2' as ->.
        * intros k g Hin Ee. destruct (FG k g Hin) as (S & N & NS). split; [rewrite N; apply Hmap|]. split; [congruence|eauto].
      + intros t' Ht' HD' HNm' HSh. destruct HO as [HO|(f & Hf & Xf & Ef)].
        * assert (EF : f_structFields c = []).
          { destruct (f_structFields c) as [|[k g] r] eqn:E; auto. exfalso. destruct (HF k g) as (f & Hin & X & _); [now left|]. rewrite (HO f Hin) in X. discriminate. }
          constructor; [rewrite EF; intros k g []|]. intros q n c2 X. exfalso.
          inversion X as [f Y|f Y|f Y|f Y|f k g _ Y|f k g p' n' _ Y]; subst; try congruence.
          -- destruct Y as (_ & Y). apply Y. rewrite Ty. cbn. auto.
          -- rewrite EF in Y. destruct Y.
          -- rewrite EF in Y. destruct Y.
        * assert (t' = t).
          { destruct HD' as [HD'|[HD'|HD']]; [rewrite K1, K2, HM in HD'; congruence|congruence|].
            destruct (HF' f Hf Xf) as (g & Hg & F). assert (Ee : f_isEmbedded g = false) by (rewrite (proj1 (field_of_parts _ _ _ _ _ _ F)); auto).
            destruct (HD' (gf_name f) g Hg Ee) as (b & B). destruct (HB _ g Hg Ee) as (_ & b0 & _ & _ & _ & _ & _ & B0 & _).
            unfold binds, has_binding in B. rewrite B0 in B. cbn in B.
            destruct B as [([B|[]] & _)|(_ & [B|[]] & _)]; [congruence|]. exfalso. apply TN. congruence. }
          subst t'. constructor.
          -- intros k g Hin Ee. split; [tauto|]. destruct (FG k g Hin) as (S & _). constructor; [rewrite S; intros ? ? []|].
             intros q n c2 N H2 P2 N2. split; [|now left]. eapply (names_named id p c q n c2); eauto. now apply (nt_field c k g).
          -- intros q n c2 N H2 P2 N2. split; [|now left]. eapply (names_named id p c q n c2); eauto.
    - assert (NSt : f_type c <> "struct").
      { assert (BS : forall n, In n builtin_names -> n <> "struct") by (intros n B ->; apply builtin_accepted in B as [_ B]; apply B; unfold compound; simpl; tauto).
        destruct S as [(b & k & ty & _ & I & [->|(-> & _)])|[(_ & ->)|[(e & n & _ & _ & _ & -> & _)|[(len & e & n & _ & _ & _ & -> & _)|(k & e & n & _ & _ & _ & -> & _)]]]]; try discriminate.
        apply BS. now apply (basic_builtin b ty). }
      split; [right; left; auto|]. split; [now apply component_not_accepted|]. intros _. split.
      + constructor; rewrite E; [intros ? ? []|intros ? ? []|intros ? ? ? ? ? ? []|intros ? ? []].
      + intros t' Ht' _ _ _. constructor; [rewrite E; intros ? ? []|]. intros q n c2 N H2 P2 N2. exfalso. subst q n.
        assert (NA := component_not_accepted c2 H2).
        destruct S as [(b & k & ty & _ & I & [X|(X & _)])|[(_ & X)|[(e & n & _ & _ & B & X & El)|[(len & e & n & _ & _ & B & X & El)|(k & e & n & _ & _ & B & X & El)]]]].
        * apply (basic_builtin b ty) in I. apply builtin_accepted in I as (I & NC). rewrite <- X in I, NC. unfold compound in NC.
          inversion N as [f [Y _]|f Y|f Y|f Y|f k0 g Y|f k0 g q' m' Y]; subst; try contradiction; apply NC; rewrite Y; simpl; tauto.
        * inversion N as [f [Y _]|f Y|f Y|f Y|f k0 g Y|f k0 g q' m' Y]; subst; try congruence. apply Y. rewrite X. simpl. tauto.
        * inversion N as [f [Y _]|f Y|f Y|f Y|f k0 g Y|f k0 g q' m' Y]; subst; try congruence. apply Y. rewrite X. simpl. tauto.
        * inversion N as [f [_ Y]|f Y|f Y|f Y|f k0 g Y|f k0 g q' m' Y]; subst; try congruence; [apply Y; rewrite X; unfold compound; simpl; tauto|].
          apply builtin_accepted in B as (B & _). congruence.
        * inversion N as [f [_ Y]|f Y|f Y|f Y|f k0 g Y|f k0 g q' m' Y]; subst; try congruence; [apply Y; rewrite X; unfold compound; simpl; tauto|].
          apply builtin_accepted in B as (B & _). congruence.
        * inversion N as [f [_ Y]|f Y|f Y|f Y|f k0 g Y|f k0 g q' m' Y]; subst; try congruence; [apply Y; rewrite X; unfold compound; simpl; tauto|].
          apply builtin_accepted in B as (B & _). congruence.
  Qed.

  (** ** From the components to the types *)

  Definition leads (k : nat) : Prop := forall id p s, reach env true T0 (GNamed id) -> te_pkg env id = Some p ->
    unfolds custom components d t k (spoken main p) (te_name env id) s -> refers env custom main t d k id s.

  Lemma builtin_type n s : In n builtin_names -> of_builtin n s -> s_ref s = "" /\ forall ty, In (n, ty) basic_types \/ n = "any" /\ ty = "" -> s_type s = ty.
  Proof.
    intros B (R & O). split; auto. intros ty [I|(-> & ->)].
    - destruct (basic_predefined n ty I) as (tf & E & <-). auto.
    - now rewrite (O (mkTF "" "") eq_refl).
  Qed.

  Lemma elem_shows k T n p : leads k -> kin env T n p -> reach env true T0 T -> forall s,
    (In n AcceptedTypes -> of_builtin n s) -> (~ In n AcceptedTypes -> unfolds custom components d t k (spoken main p) n s) ->
    shows t (refers env custom main t d k) T s.
  Proof.
    intros HL. induction 1 as [b kk ty I| |id p Hp NA NAr|e n p K IH]; intros R s HB HN'.
    - assert (B := basic_builtin b ty I). destruct (builtin_type b s B (HB (proj1 (builtin_accepted b B)))) as (S1 & S2).
      eapply sh_basic; eauto.
    - assert (B : In "any" builtin_names) by now left. destruct (builtin_type _ s B (HB (proj1 (builtin_accepted _ B)))) as (S1 & S2).
      apply sh_any; auto.
    - apply sh_named. apply (HL id p); auto.
    - apply sh_pointer. apply IH; auto. apply (reach_trans _ _ _ _ _ R). econstructor; constructor.
  Qed.

  Lemma fits_simple leaf f s : fits components t leaf f s -> ~ compound (f_type f) ->
    (In (f_type f) AcceptedTypes -> of_builtin (f_type f) s) /\ (~ In (f_type f) AcceptedTypes -> leaf (f_package f) (f_type f) s).
  Proof.
    intros F NC. unfold compound in NC. inversion F as [f' s' E|f' s' i E|f' s' i E|f' s' i E|f' s' A _ B|f' s' [A _] B]; subst; try (exfalso; apply NC; rewrite E; simpl; tauto); tauto.
  Qed.

  Lemma looks_shows k T g s : leads k -> looks env main T g -> reach env true T0 T -> fits components t (unfolds custom components d t k) g s ->
    shows t (refers env custom main t d k) T s.
  Proof.
    intros HL L R F.
    assert (NotC : forall x, In x ["struct"; "slice"; "array"; "map"] -> f_type g = x -> ~ named_type (f_type g)).
    { intros x I -> [_ NC]. now apply NC. }
    inversion L as [T' m q g' K Ty W|e m q g' K Ty El W|len e m q g' K Ty El W|kk e m q g' K Ty El W]; subst g'; try subst T'; try subst T.
    - assert (NC : ~ compound (f_type g)).
      { rewrite Ty. destruct (kin_cases _ _ _ _ K) as [B|(id & _ & _ & _ & _ & C)]; auto. now apply builtin_accepted. }
      destruct (fits_simple _ _ _ F NC) as (F1 & F2). rewrite Ty in F1, F2.
      apply (elem_shows k T m q HL K R s); auto. intros NA. rewrite <- (W NA). auto.
    - assert (N1 := NotC "slice" ltac:(simpl; tauto) Ty).
      inversion F as [f' s' E|f' s' i E S1 S2 S3 (X1 & X2)|f' s' i E|f' s' i E|f' s' A N B|f' s' N B]; subst f' s'; try congruence; try contradiction;
        [|exfalso; apply N; rewrite Ty; unfold compound; simpl; tauto].
      rewrite El in X1, X2. eapply sh_slice; eauto. apply (elem_shows k e m q HL K); auto.
      + apply (reach_trans _ _ _ _ _ R). econstructor; constructor.
      + intros NA. rewrite <- (W NA). auto.
    - assert (N1 := NotC "array" ltac:(simpl; tauto) Ty).
      inversion F as [f' s' E|f' s' i E|f' s' i E S1 S2 S3 (X1 & X2)|f' s' i E|f' s' A N B|f' s' N B]; subst f' s'; try congruence; try contradiction;
        [|exfalso; apply N; rewrite Ty; unfold compound; simpl; tauto].
      rewrite El in X1, X2. eapply sh_array; eauto. apply (elem_shows k e m q HL K); auto.
      + apply (reach_trans _ _ _ _ _ R). econstructor; constructor.
      + intros NA. rewrite <- (W NA). auto.
    - assert (N1 := NotC "map" ltac:(simpl; tauto) Ty).
      inversion F as [f' s' E|f' s' i E|f' s' i E|f' s' i E S1 S2 S3 (X1 & X2)|f' s' A N B|f' s' N B]; subst f' s'; try congruence; try contradiction;
        [|exfalso; apply N; rewrite Ty; unfold compound; simpl; tauto].
      rewrite El in X1, X2. eapply sh_map; eauto. apply (elem_shows k e m q HL K); auto.
      + apply (reach_trans _ _ _ _ _ R). econstructor; [apply part_value|constructor].
      + intros NA. rewrite <- (W NA). auto.
  Qed.

  Lemma component_shows k id p c s : leads k -> reach env true T0 (GNamed id) -> known id p -> component_of env main id c ->
    typeMapping custom (te_name env id) (spoken main p) = None ->
    fits components t (unfolds custom components d t k) c s -> shows t (refers env custom main t d k) (te_under env id) s.
  Proof.
    intros HL R K C HM F. assert (Hp := proj1 K).
    assert (RU : reach env true T0 (te_under env id)) by (apply (reach_trans _ _ _ _ _ R); econstructor; [eapply part_named; eauto|constructor]).
    assert (BC : forall n, In n builtin_names -> ~ compound n) by (intros n B; now apply builtin_accepted).
    assert (Simple : forall n T, In n builtin_names -> f_type c = n -> kin env T n "" -> reach env true T0 T -> shows t (refers env custom main t d k) T s).
    { intros n T B Ty KT RT. destruct (fits_simple _ _ _ F) as (F1 & F2); [rewrite Ty; auto|]. rewrite Ty in F1, F2.
      apply (elem_shows k T n "" HL KT RT s); auto. intros NA. exfalso. apply NA. now apply builtin_accepted. }
    assert (NT : forall x, In x ["slice"; "array"; "map"; "struct"] -> f_type c = x -> ~ named_type (f_type c) /\ (~ compound (f_type c) -> False)).
    { intros x I ->. assert (compound x) by (unfold compound; simpl in *; tauto). split; [intros [_ X]; auto|auto]. }
    destruct (unmapped id p c R K C HM) as [(fs & Hu & (HP & HO & HU) & Ty & HF & HF')|(E & S)].
    - destruct (NT "struct" ltac:(simpl; tauto) Ty) as (N1 & N2).
      inversion F as [f' s' _ S1 S2 S3 S4 S5|f' s' i X|f' s' i X|f' s' i X|f' s' A N B|f' s' N B]; subst f' s'; try congruence; try contradiction.
      rewrite Hu. apply sh_struct; auto.
      + intros n. rewrite S3. unfold shown. split.
        * intros (kk & g & b & Hin & Ee & B & NS & Nm). destruct (HF kk g Hin) as (f & Hf & Xf & Ff). exists f. split; auto.
          destruct (own_binding p f kk g Xf (HP f Hf Xf) Ff Ee) as (b0 & _ & _ & M & BB). apply BB in B. subst b0. apply M. auto.
        * intros (f & Hf & M). assert (M' := M). destruct M' as (Xf & Ef & _). destruct (HF' f Hf Xf) as (g & Hin & Ff).
          assert (Ee : f_isEmbedded g = false) by (rewrite (proj1 (field_of_parts _ _ _ _ _ _ Ff)); auto).
          destruct (own_binding p f _ g Xf (HP f Hf Xf) Ff Ee) as (b0 & _ & _ & MM & BB). apply MM in M as (M1 & M2).
          exists (gf_name f), g, b0. repeat (split; auto). now apply BB.
      + intros f n Hf M. assert (M' := M). destruct M' as (Xf & Ef & _). destruct (HF' f Hf Xf) as (g & Hin & Ff).
        assert (Ee : f_isEmbedded g = false) by (rewrite (proj1 (field_of_parts _ _ _ _ _ _ Ff)); auto).
        destruct (own_binding p f _ g Xf (HP f Hf Xf) Ff Ee) as (b0 & _ & _ & MM & BB). apply MM in M as (M1 & M2).
        destruct (S4 _ g b0 Hin Ee) as (pr & Hpr & Fp); [now apply BB|auto|]. exists pr. split; [congruence|].
        destruct (field_of_looks _ _ _ _ _ _ Ff (field_flat id p fs f R Hp Hu Hf Xf (HP f Hf Xf))) as (L & _).
        apply (looks_shows k _ g); auto. eapply field_reached; eauto.
      + intros f Hf Xf Ef. destruct (HF' f Hf Xf) as (g & Hin & Ff).
        assert (Ee : f_isEmbedded g = true) by (rewrite (proj1 (field_of_parts _ _ _ _ _ _ Ff)); auto).
        destruct (field_of_looks _ _ _ _ _ _ Ff (field_flat id p fs f R Hp Hu Hf Xf (HP f Hf Xf))) as (L & _).
        assert (Em : embeddable (gf_type f)) by (destruct (HP f Hf Xf) as (_ & X); rewrite Ef in X; apply X).
        assert (RF : reach env true T0 (gf_type f)) by (eapply field_reached; eauto).
        destruct (looks_embedded _ _ _ _ L Em) as (id' & q & R' & Hq & Q & M).
        destruct (reached id' (reach_trans _ _ _ _ _ RF R')) as (q' & c' & K' & Hc' & _ & Nc & Pc).
        assert (q' = q) by (destruct K'; congruence). subst q'.
        destruct (S5 _ g Hin Ee) as (e & He & U); [exists c'; repeat split; auto; congruence|]. exists e. split; auto.
        inversion L as [T' m q0 g' KT Ty' W|? ? ? ? ? ? ? ? X|? ? ? ? ? ? ? ? ? X|? ? ? ? ? ? ? ? ? X]; subst; try (rewrite <- X in Em; inversion Em; fail).
        apply (elem_shows k _ _ q0 HL KT RF); [|intros NA; now rewrite <- (W NA)].
        intros A. exfalso. rewrite M in A. destruct K' as (_ & _ & _ & NA & _). auto.
    - destruct S as [(b & kk & ty & Hu & I & [Ty|(Ty & I')])|[(Hu & Ty)|[(e & n & Hu & KE & B & Ty & El)|[(len & e & n & Hu & KE & B & Ty & El)|(kk & e & n & Hu & KE & B & Ty & El)]]]]; rewrite Hu in *.
      + apply (Simple b); auto; [now apply (basic_builtin b ty)|]. econstructor; eauto.
      + destruct (fits_simple _ _ _ F) as (F1 & _); [rewrite Ty; apply BC, (basic_builtin "int" "integer"); simpl; tauto|].
        rewrite Ty in F1. assert (BI : In "int" builtin_names) by (apply (basic_builtin "int" "integer"); simpl; tauto).
        destruct (builtin_type "int" s BI (F1 (proj1 (builtin_accepted _ BI)))) as (S1 & S2).
        eapply sh_basic; eauto. apply S2. left. simpl. tauto.
      + apply (Simple "any"); auto; [now left|constructor].
      + destruct (NT "slice" ltac:(simpl; tauto) Ty) as (N1 & N2).
        inversion F as [f' s' X|f' s' i _ S1 S2 S3 (X1 & X2)|f' s' i X|f' s' i X|f' s' A N B'|f' s' N B']; subst f' s'; try congruence; try contradiction.
        rewrite El in X1, X2. eapply sh_slice; eauto. apply (elem_shows k e n "" HL KE); auto.
        * apply (reach_trans _ _ _ _ _ RU). econstructor; constructor.
        * intros NA. exfalso. apply NA. now apply builtin_accepted.
      + destruct (NT "array" ltac:(simpl; tauto) Ty) as (N1 & N2).
        inversion F as [f' s' X|f' s' i X|f' s' i _ S1 S2 S3 (X1 & X2)|f' s' i X|f' s' A N B'|f' s' N B']; subst f' s'; try congruence; try contradiction.
        rewrite El in X1, X2. eapply sh_array; eauto. apply (elem_shows k e n "" HL KE); auto.
        * apply (reach_trans _ _ _ _ _ RU). econstructor; constructor.
        * intros NA. exfalso. apply NA. now apply builtin_accepted.
      + destruct (NT "map" ltac:(simpl; tauto) Ty) as (N1 & N2).
        inversion F as [f' s' X|f' s' i X|f' s' i X|f' s' i _ S1 S2 S3 (X1 & X2)|f' s' A N B'|f' s' N B']; subst f' s'; try congruence; try contradiction.
        rewrite El in X1, X2. eapply sh_map; eauto. apply (elem_shows k e n "" HL KE); auto.
        * apply (reach_trans _ _ _ _ _ RU). econstructor; [apply part_value|constructor].
        * intros NA. exfalso. apply NA. now apply builtin_accepted.
  Qed.

  Lemma all_leads k : leads k.
  Proof.
    induction k as [|k IH]; intros id p s R Hp U; cbn [refers]; auto.
    destruct (reached id R) as (p' & c & K & Hc & C & Nc & Pc). assert (p' = p) by (destruct K; congruence). subst p'.
    destruct (U c Hc Pc Nc) as (name & sch & Rf & Lk & M). exists p, name, sch. split; auto. split; auto. split; auto.
    destruct (typeMapping custom (te_name env id) (spoken main p)) as [tf|] eqn:HM; auto.
    eapply component_shows; eauto.
  Qed.

  (** ** The schema of a value *)

  Lemma value_shows fuel add pkg l r f : value_type T0 -> TypeResult fuel env add pkg "" T0 = (l, Ok r) ->
    f = cleanField main (ParseResultToField r) ->
    exists s, mapFieldToSchema names t f = Some s /\ portrays env custom main t d T0 s /\ (~ anything T0 -> s <> emptySchema).
  Proof.
    intros HV E ->. set (f := cleanField main (ParseResultToField r)).
    assert (FL : flat T0 /\ ~ exists len e, T0 = GArray len e).
    { destruct HV as [e H|e H B|kk e Hk H]; (split; [now constructor|]); intros (len & e' & X); try discriminate. subst e. inversion H. }
    destruct FL as (FL & NAr). assert (FK := flat_flat_kin env T0 FL (good_ids T0 ltac:(constructor))).
    destruct (type_looks env main T0 fuel add pkg l r (ParseResultToField r) FK E) as (L & SF & NM).
    { unfold same_type. repeat split. }
    fold f in L, SF, NM.
    assert (VF : forall s n, mapFieldToSchema names t f = Some s -> value_unfolds custom components d t n f s).
    { intros s n. apply (value_fits o custom config routes components d names level t Ho parsed_all separated_all plain_all HN G Ht f).
      intros c c' Hc VN B. assert (NA := component_not_accepted c Hc).
      assert (RC : exists id, reach env true T0 (GNamed id) /\ component_of env main id c).
      { destruct (looks_names _ _ _ _ (f_package c) (f_name c) L) as (id & q & R & Hq & P & N); auto.
        - destruct VN as (P & [(A & N)|[(Ty & N)|(Ty & N)]]); rewrite P, N.
          + apply nt_name. split; auto. intros C. assert (In (f_type f) AcceptedTypes \/ f_type f = "array") as [X|X] by (destruct C as [<-|[<-|[<-|[<-|[]]]]]; simpl; tauto); auto.
            inversion L as [T' m q g' KT Ty' W|e m q g' KT Ty' El W|len e m q g' KT Ty' El W|kk e m q g' KT Ty' El W]; subst; try congruence.
            * destruct (kin_cases _ _ _ _ KT) as [B'|(id & _ & _ & _ & _ & C')]; [apply A; now apply builtin_accepted|auto].
            * apply NAr. eauto.
          + now apply nt_slice.
          + now apply nt_map.
        - exists id. split; auto. eapply component_known; eauto. }
      destruct RC as (id & R & C). destruct (reached_behind c c' B id R Hc C) as (id' & R' & Hc' & C'). eapply faithful_reached; eauto. }
    assert (RT : reach env true T0 T0) by constructor.
    inversion L as [T' m q g' K Ty W|e m q g' K Ty El W|len e m q g' K Ty El W|kk e m q g' K Ty El W]; subst g'.
    - subst T'. destruct (kin_cases _ _ _ _ K) as [B|(id & R & Hq & Em & NA & NC)].
      + exists (mapPredefinedTypeFormat m). assert (EM : mapFieldToSchema names t f = Some (mapPredefinedTypeFormat m)).
        { unfold mapFieldToSchema. rewrite Ty. assert (A := B). apply builtin_accepted in A as [A NC]. apply accepted_spec in A. rewrite A. cbn [negb].
          destruct (String.eqb_spec m "slice") as [X|_]; [exfalso; apply NC; rewrite X; unfold compound; simpl; tauto|].
          destruct (String.eqb_spec m "map") as [X|_]; [exfalso; apply NC; rewrite X; unfold compound; simpl; tauto|]. reflexivity. }
        split; auto. split.
        * intros k. apply (elem_shows k T0 m q (all_leads k) K RT); [intros _; apply predefined_builtin|]. intros NA. exfalso. apply NA. now apply builtin_accepted.
        * intros NAn Z. assert (BT := predefined_builtin m). rewrite Z in BT. destruct B as [<-|B].
          -- apply NAn. clear - K Hdist. remember "any" as x eqn:Ex. revert Ex. induction K as [b kk ty I| |id p Hp NA _|e n p K IH]; intros Ex; subst.
             ++ simpl in I. intuition discriminate.
             ++ constructor.
             ++ exfalso. apply NA. rewrite Ex. simpl. tauto.
             ++ constructor. auto.
          -- apply in_map_iff in B as ((b & ty) & X & B). cbn in X. subst b. destruct BT as (_ & BT). destruct (basic_predefined _ _ B) as (tf & Etf & Tt).
             specialize (BT tf Etf). cbn in BT. rewrite Tt in BT. subst ty. clear - B. simpl in B. intuition discriminate.
      + assert (NA' : IsAcceptedType (f_type f) = false).
        { rewrite Ty. destruct (IsAcceptedType m) eqn:X; auto. apply accepted_spec in X. contradiction. }
        destruct (reached id R) as (q' & c & Kn & Hc & C & Nc & Pc). assert (q' = q) by (destruct Kn; congruence). subst q'.
        destruct (generated_inv _ _ _ _ _ _ _ _ G) as (cfg & _ & En & _ & _).
        destruct (has_name_ref o components names level Ho parsed_all plain_all HN En c t Hc Ht (reached_named id c R C)) as (nm & Er).
        assert (EM : mapFieldToSchema names t f = Some (refSchema ("#/components/schemas/" ++ nm))).
        { unfold mapFieldToSchema. rewrite NA'. cbn [negb]. unfold makeComponentRef. rewrite Ty, (W NA), Em, <- Nc, <- Pc, Er. reflexivity. }
        eexists. split; [exact EM|]. split.
        * intros k. apply (elem_shows k T0 m q (all_leads k) K RT); [intros A; contradiction|]. intros _.
          destruct (VF _ k EM) as (U & _). rewrite Ty, (W NA) in U. auto.
        * intros _ Z. discriminate.
    - assert (EM : exists s, mapFieldToSchema names t f = Some s /\ s <> emptySchema).
      { unfold mapFieldToSchema. rewrite Ty. cbn. eexists. split; [reflexivity|discriminate]. }
      destruct EM as (s & EM & NE). exists s. split; auto. split; auto. intros k. destruct (VF s k EM) as (_ & VS & _).
      destruct (VS Ty) as (S1 & S2 & i & S3 & X1 & X2). rewrite El in X1, X2. eapply sh_slice; eauto.
      assert (RE : reach env true T0 e) by (subst; econstructor; constructor).
      apply (elem_shows k e m q (all_leads k) K RE); auto. intros NA. rewrite <- (W NA). auto.
    - exfalso. apply NAr. subst. eauto.
    - assert (EM : exists s, mapFieldToSchema names t f = Some s /\ s <> emptySchema).
      { unfold mapFieldToSchema. rewrite Ty. cbn. eexists. split; [reflexivity|discriminate]. }
      destruct EM as (s & EM & NE). exists s. split; auto. split; auto. intros k. destruct (VF s k EM) as (_ & _ & VS).
      destruct (VS Ty) as (S1 & S2 & i & S3 & X1 & X2). rewrite El in X1, X2. eapply sh_map; eauto.
      assert (RE : reach env true T0 e) by (subst; econstructor; [apply part_value|constructor]).
      apply (elem_shows k e m q (all_leads k) K RE); auto. intros NA. rewrite <- (W NA). auto.
  Qed.
End Static.
