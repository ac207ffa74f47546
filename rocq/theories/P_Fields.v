(** Proofs about the field recorded for a type, enum values and comments. *)
From Coq Require Import List String Ascii Bool ZArith Arith Relations Lia.
From Verif Require Import BaseStr BaseMap M_Types M_Tags M_Collect M_OpenAPI M_TypeTrav S_TypeTrav P_TypeTrav.
Import ListNotations.
Local Open Scope string_scope.
Local Arguments IsAcceptedType : simpl never.

(** ** The field recorded for a type *)

Lemma accepted_spec n : IsAcceptedType n = true <-> In n AcceptedTypes.
Proof. apply str_in_spec. Qed.
Lemma accepted_false n : IsAcceptedType n = false <-> ~ In n AcceptedTypes.
Proof. apply str_in_false. Qed.

Lemma elem_result env t n p : elem_of env t n p -> forall fuel add pkg l r,
  TypeResult fuel env add pkg "" t = (l, Ok r) ->
  (r = res n pkg /\ p = "" /\ In n AcceptedTypes) \/ (r = res n (Some p) /\ ~ In n AcceptedTypes).
Proof.
  induction 1 as [b k Hb| |id p Hp Hn|e n p H IH]; intros fuel add pkg l r E;
    destruct fuel as [|fuel]; try discriminate; cbn [TypeResult] in E.
  - wsplit. simpl in O0. injection O0 as <-. apply finish_ok in O. destruct O as [-> _]. auto.
  - wsplit. apply finish_ok in O. destruct O as [-> _]. left. repeat split. apply accepted_spec. reflexivity.
  - wsplit. apply finish_ok in O. destruct O as [-> _]. rewrite Hp. auto.
  - eauto.
Qed.

Lemma elem_name env t n p : elem_of env t n p -> forall fuel add pkg l r,
  TypeResult fuel env add pkg "" t = (l, Ok r) -> n <> "".
Proof.
  intros H fuel add pkg l r E. revert fuel E. induction H as [b k Hb| |id p Hp Hn|e n p H IH]; intros fuel E;
    destruct fuel as [|fuel]; try discriminate; cbn [TypeResult] in E.
  - wsplit. simpl in O0. injection O0 as <-. now apply finish_ok in O.
  - wsplit. now apply finish_ok in O.
  - eauto.
Qed.

Lemma parse_eq r : ParseResultToField r =
  mkField (if needs_package r then Path (q_package r) else "")
          (q_type r) (q_name r) (q_enum r) false (q_isEmbedded r) (q_sliceType r) (q_arrayType r)
          (q_arrayLength r)
          (if negb (String.eqb (q_mapKeyType r) "") && negb (IsAcceptedType (q_mapKeyType r))
           then Path (q_mapKeyPackage r) else "")
          (q_mapKeyType r) (q_mapValueType r)
          (map (fun kv => (fst kv, ParseResultToField (snd kv))) (q_structFields r))
          (q_bindingTags r) (q_validationTags r)
          (if String.eqb (q_doc r) "" then "" else TrimSpace (q_doc r)).
Proof. destruct r; reflexivity. Qed.

Lemma field_value env t n p fuel add pkg l r :
  elem_of env t n p -> TypeResult fuel env add pkg "" t = (l, Ok r) ->
  ParseResultToField r = mkField p n "" [] false false "" "" 0 "" "" "" [] [] [] "".
Proof.
  intros H E. destruct (elem_result _ _ _ _ H _ _ _ _ _ E) as [(-> & -> & Hn)|(-> & Hn)].
  - apply accepted_spec in Hn. rewrite parse_eq; unfold needs_package. simpl.
    rewrite Hn. reflexivity.
  - apply accepted_false in Hn. rewrite parse_eq; unfold needs_package. simpl.
    rewrite Hn. reflexivity.
Qed.

Lemma field_slice env t n p fuel add pkg l r :
  elem_of env t n p -> TypeResult fuel env add pkg "" (GSlice t) = (l, Ok r) ->
  ParseResultToField r = mkField p "slice" "" [] false false n "" 0 "" "" "" [] [] [] "".
Proof.
  intros H E. destruct fuel as [|fuel]; [discriminate|]. cbn [TypeResult] in E. wsplit.
  apply finish_ok in O. destruct O as [-> _].
  assert (Nn := elem_name _ _ _ _ H _ _ _ _ _ W). apply String.eqb_neq in Nn.
  destruct (elem_result _ _ _ _ H _ _ _ _ _ W) as [(-> & -> & Hn)|(-> & Hn)].
  - apply accepted_spec in Hn. rewrite parse_eq; unfold needs_package. simpl.
    rewrite Hn. simpl. rewrite andb_false_r. reflexivity.
  - apply accepted_false in Hn. rewrite parse_eq; unfold needs_package. simpl.
    rewrite Hn, Nn. reflexivity.
Qed.

Lemma field_array env t n p len fuel add pkg l r :
  elem_of env t n p -> TypeResult fuel env add pkg "" (GArray len t) = (l, Ok r) ->
  exists q, ParseResultToField r = mkField q "array" "" [] false false "" n len "" "" "" [] [] [] "" /\
    (~ In n AcceptedTypes -> q = p).
Proof.
  intros H E. destruct fuel as [|fuel]; [discriminate|]. cbn [TypeResult] in E. wsplit.
  apply finish_ok in O. destruct O as [-> _].
  destruct (elem_result _ _ _ _ H _ _ _ _ _ W) as [(-> & -> & Hn)|(-> & Hn)];
    (eexists; split; [reflexivity|]); auto. tauto.
Qed.

Lemma field_map env k kn kp t n p fuel add pkg l r :
  elem_of env k kn kp -> elem_of env t n p -> TypeResult fuel env add pkg "" (GMap k t) = (l, Ok r) ->
  ParseResultToField r = mkField p "map" "" [] false false "" "" 0 kp kn n [] [] [] "".
Proof.
  intros Hk H E. destruct fuel as [|fuel]; [discriminate|]. cbn [TypeResult] in E. wsplit.
  apply finish_ok in O. destruct O as [-> _].
  match goal with A : TypeResult _ _ _ _ _ k = _, B : TypeResult _ _ _ _ _ t = _ |- _ =>
    rename A into Wk; rename B into Wt end.
  assert (Nn := elem_name _ _ _ _ H _ _ _ _ _ Wt). apply String.eqb_neq in Nn.
  assert (Nk := elem_name _ _ _ _ Hk _ _ _ _ _ Wk). apply String.eqb_neq in Nk.
  destruct (elem_result _ _ _ _ Hk _ _ _ _ _ Wk) as [(-> & -> & Hkn)|(-> & Hkn)];
  destruct (elem_result _ _ _ _ H _ _ _ _ _ Wt) as [(-> & -> & Hn)|(-> & Hn)];
  (first [apply accepted_spec in Hn|apply accepted_false in Hn]);
  (first [apply accepted_spec in Hkn|apply accepted_false in Hkn]);
  rewrite parse_eq; unfold needs_package; simpl; rewrite Hn, Hkn, ?Nn, ?Nk; simpl;
  rewrite ?andb_false_r; reflexivity.
Qed.

(** ** Enum values *)

Lemma digit_spec c : (48 <= nat_of_ascii c <= 57)%nat -> digit_val c = Some (Z.of_nat (nat_of_ascii c) - 48)%Z.
Proof.
  intros [H1 H2]. unfold digit_val. apply Nat.leb_le in H1, H2. now rewrite H1, H2.
Qed.

Lemma parse_digits_snoc s c : forall acc,
  parse_digits acc (s ++ String c "") =
  match parse_digits acc s with
  | Some z => match digit_val c with Some d => Some (z * 10 + d)%Z | None => None end
  | None => None
  end.
Proof.
  induction s as [|d r IH]; intros acc; simpl; auto. destruct (digit_val d); auto.
Qed.

Lemma decimal_parse s z : decimal s z -> parse_digits 0 s = Some z /\ (0 <= z)%Z /\ s <> "".
Proof.
  induction 1 as [c Hc|s z c H (E & Hz & Hs) Hc].
  - simpl. rewrite (digit_spec _ Hc). repeat split; try lia; discriminate.
  - rewrite parse_digits_snoc, E, (digit_spec _ Hc). repeat split; try lia.
    + f_equal. lia.
    + destruct s; discriminate.
Qed.

Lemma decimal_first s z : decimal s z -> exists c r, s = String c r /\ (48 <= nat_of_ascii c <= 57)%nat.
Proof.
  induction 1 as [c Hc|s z c H (d & r & -> & Hd) Hc]; eauto.
  exists d, (r ++ String c ""). auto.
Qed.

Lemma decimal_uint s z : decimal s z -> (z < 2 ^ 64)%Z -> ParseUint s = Some z.
Proof.
  intros H Hz. destruct (decimal_parse _ _ H) as (E & H0 & Hs). unfold ParseUint.
  destruct s as [|c r]; [congruence|]. rewrite E. unfold in_range.
  destruct (Z.leb_spec 0 z); [|lia]. destruct (Z.leb_spec z (2 ^ 64 - 1)); [reflexivity|lia].
Qed.

Lemma decimal_int s z : decimal s z -> (z < 2 ^ 63)%Z -> ParseInt s = Some z.
Proof.
  intros H Hz. destruct (decimal_parse _ _ H) as (_ & H0 & _).
  destruct (decimal_first _ _ H) as (c & r & -> & Hc).
  assert (U : ParseUint (String c r) = Some z) by (apply decimal_uint; auto; lia).
  assert (R : in_range (- 2 ^ 63) (2 ^ 63 - 1) z = Some z).
  { unfold in_range. destruct (Z.leb_spec (- 2 ^ 63) z); [|lia].
    destruct (Z.leb_spec z (2 ^ 63 - 1)); [reflexivity|lia]. }
  assert (Hm : c <> "-"%char) by (intros ->; cbv in Hc; lia).
  assert (Hp : c <> "+"%char) by (intros ->; cbv in Hc; lia).
  unfold ParseInt. destruct c as [[] [] [] [] [] [] [] []]; try congruence; rewrite U; exact R.
Qed.

Lemma trim_right_char_absent c s : has_char c s = false -> trim_right_char c s = s.
Proof.
  induction s as [|d r IH]; simpl; auto. rewrite orb_false_iff. intros [H1 H2].
  rewrite (IH H2). destruct r; auto. rewrite H1. reflexivity.
Qed.

Lemma trim_right_char_last c s : has_char c s = false -> trim_right_char c (s ++ String c "") = s.
Proof.
  induction s as [|d r IH]; simpl; [now rewrite Ascii.eqb_refl|].
  rewrite orb_false_iff. intros [H1 H2]. rewrite (IH H2). destruct r; auto. now rewrite H1.
Qed.

Lemma trim_left_char_absent c s : has_char c s = false -> trim_left_char c s = s.
Proof.
  destruct s as [|d r]; simpl; auto. rewrite orb_false_iff. now intros [-> _].
Qed.

Lemma trim_quotes_literal s : has_char dquote s = false ->
  trim_quotes (String dquote (s ++ String dquote "")) = s.
Proof.
  intros H. unfold trim_quotes, trim_char. simpl.
  destruct s as [|d r].
  - reflexivity.
  - simpl in H |- *. apply orb_false_iff in H. destruct H as [H1 H2].
    change (Ascii.eqb d dquote = false) in H1. change (ascii_of_nat 34) with dquote. rewrite H1.
    apply (trim_right_char_last dquote (String d r)). simpl. now rewrite H1, H2.
Qed.

Lemma enum_value_lit floatOK k text v : lit_denotes floatOK k text v -> enum_value floatOK k text = [v].
Proof.
  destruct k; simpl; try contradiction.
  - intros (s & -> & H1 & _ & ->). now rewrite trim_quotes_literal.
  - intros (z & H & _ & Hz & ->). now rewrite (decimal_int _ _ H Hz).
  - intros [-> ->]. reflexivity.
  - intros (z & H & _ & Hz & ->). now rewrite (decimal_int _ _ H Hz).
  - intros (z & H & _ & Hz & ->). now rewrite (decimal_uint _ _ H Hz).
Qed.

Lemma values_of_app name a b : values_of name (a ++ b) = (values_of name a ++ values_of name b)%list.
Proof. unfold values_of. now rewrite filter_app, map_app. Qed.

Lemma enum_spec_plain floatOK k name v : plain_spec floatOK k name v ->
  enum_spec floatOK k name v = values_of name (vs_declares v).
Proof.
  unfold enum_spec. intros [[-> H]|[Hn H]].
  - rewrite String.eqb_refl. induction H as [|e c es cs (text & -> & Hc & Hl) H IH]; auto.
    simpl. rewrite (enum_value_lit _ _ _ _ Hl), IH. unfold values_of; simpl. rewrite Hc, String.eqb_refl.
    reflexivity.
  - assert (E : values_of name (vs_declares v) = []).
    { induction H as [|c cs Hc H IH]; auto. unfold values_of; simpl.
      apply String.eqb_neq in Hc. rewrite Hc. exact IH. }
    rewrite E. destruct (vs_type v) as [|i|]; auto. destruct (String.eqb_spec i name); auto. congruence.
Qed.

Lemma enum_plain floatOK k name files : plain_consts floatOK k name files ->
  enum_values floatOK k name files = values_of name (declared files).
Proof.
  unfold plain_consts. intros H. unfold enum_values, declared.
  induction files as [|file r IH]; auto. simpl.
  rewrite values_of_app. f_equal.
  - clear IH. assert (H' : forall specs v, In (DGen true specs) file -> In v specs -> plain_spec floatOK k name v)
      by (intros; eapply H; simpl; eauto). clear H.
    induction file as [|d ds IHd]; auto. simpl. rewrite values_of_app. f_equal.
    + destruct d as [[] specs|]; auto.
      assert (Hs : forall v, In v specs -> plain_spec floatOK k name v)
        by (intros; eapply H'; simpl; eauto). clear H' IHd.
      induction specs as [|v vs IHv]; auto. simpl. rewrite values_of_app. f_equal.
      * apply enum_spec_plain. apply Hs; simpl; auto.
      * apply IHv. intros; apply Hs; simpl; auto.
    + apply IHd. intros; eapply H'; simpl; eauto.
  - apply IH. intros; eapply H; simpl; eauto.
Qed.

(** The enum values of a named basic type in its registered definition. *)
Lemma definition_enum env id b k p x : definition_of env id x ->
  te_under env id = GBasic b k -> te_pkg env id = Some p -> te_name env id <> "" ->
  f_enum (ParseResultToField x) = enum_values (te_floatOK env) k (te_name env id) (te_decls env p).
Proof.
  intros (p' & n & l & u & Hp' & E & ->) Hu Hp Hn. assert (p' = p) by congruence. subst p'.
  rewrite Hu in E. destruct n as [|n]; [discriminate|]. cbn [TypeResult] in E. wsplit.
  apply String.eqb_neq in Hn. rewrite Hn in O0. simpl in O0.
  destruct (te_loads env p); [|discriminate]. injection O0 as <-.
  apply finish_ok in O. destruct O as [-> _]. rewrite Hn. reflexivity.
Qed.

(** ** Comments *)

Lemma strip_prefix_spec l s s' : strip_prefix l s = Some s' -> exists x, In x l /\ s = x ++ s'.
Proof.
  induction l as [|p r IH]; simpl; [discriminate|].
  destruct (has_prefix p s) eqn:E.
  - intros H; injection H as <-. apply has_prefix_spec in E. destruct E as [t ->].
    rewrite drop_append. eauto.
  - intros H. destruct (IH H) as (x & Hx & ->). eauto.
Qed.
Lemma strip_prefix_none l s : strip_prefix l s = None -> forall x m, In x l -> s <> x ++ m.
Proof.
  induction l as [|p r IH]; simpl; [intros _ x m []|].
  destruct (has_prefix p s) eqn:E; [discriminate|]. intros H x m [<-|Hx] ->.
  - assert (has_prefix p (p ++ m) = true) by (apply has_prefix_spec; eauto). congruence.
  - eapply IH; eauto.
Qed.
Lemma take_length_append a b : take (String.length (a ++ b) - String.length b) (a ++ b) = a.
Proof.
  rewrite length_append, Nat.add_sub. apply take_append.
Qed.
Lemma strip_suffix_spec l s s' : strip_suffix l s = Some s' -> exists x, In x l /\ s = s' ++ x.
Proof.
  induction l as [|p r IH]; simpl; [discriminate|].
  destruct (has_suffix p s) eqn:E.
  - intros H; injection H as <-. apply has_suffix_spec in E. destruct E as [t ->].
    exists p. rewrite take_length_append. auto.
  - intros H. destruct (IH H) as (x & Hx & ->). eauto.
Qed.
Lemma strip_suffix_none l s : strip_suffix l s = None -> forall x m, In x l -> s <> m ++ x.
Proof.
  induction l as [|p r IH]; simpl; [intros _ x m []|].
  destruct (has_suffix p s) eqn:E; [discriminate|]. intros H x m [<-|Hx] ->.
  - assert (has_suffix p (m ++ p) = true) by (apply has_suffix_spec; eauto). congruence.
  - eapply IH; eauto.
Qed.

Lemma space_nonempty x : In x space_runes -> 0 < String.length x.
Proof.
  intros H. assert (F : forallb (fun x => Nat.ltb 0 (String.length x)) space_runes = true) by reflexivity.
  eapply forallb_forall in F; eauto. now apply Nat.ltb_lt.
Qed.

Lemma concat_cons a l : String.concat "" (a :: l) = a ++ String.concat "" l.
Proof. simpl. destruct l; [now rewrite append_nil_r|reflexivity]. Qed.
Lemma concat_snoc l a : String.concat "" (l ++ [a]) = String.concat "" l ++ a.
Proof.
  induction l as [|x r IH]; [reflexivity|]. cbn [app]. rewrite concat_cons, IH, concat_cons.
  now rewrite append_assoc.
Qed.

Lemma trim_left_spec fuel : forall s, String.length s <= fuel ->
  exists l, s = l ++ trim_with (strip_prefix space_runes) fuel s /\ spaces l /\
    strip_prefix space_runes (trim_with (strip_prefix space_runes) fuel s) = None.
Proof.
  induction fuel as [|n IH]; intros s Hl.
  - destruct s; simpl in Hl; [|lia]. exists "". simpl. split; auto. split; [exists []; auto|]. reflexivity.
  - cbn [trim_with]. destruct (strip_prefix space_runes s) as [s'|] eqn:E.
    + destruct (strip_prefix_spec _ _ _ E) as (x & Hx & ->).
      assert (Lx := space_nonempty _ Hx). rewrite length_append in Hl.
      destruct (IH s') as (l & E1 & (xs & -> & Hxs) & E2); [lia|].
      exists (x ++ String.concat "" xs). split; [rewrite append_assoc; congruence|]. split; auto.
      exists (x :: xs). split; [now rewrite concat_cons|]. now constructor.
    + exists "". split; auto. split; [exists []; auto|]. exact E.
Qed.
Lemma trim_right_spec fuel : forall s, String.length s <= fuel ->
  exists r, s = trim_with (strip_suffix space_runes) fuel s ++ r /\ spaces r /\
    strip_suffix space_runes (trim_with (strip_suffix space_runes) fuel s) = None.
Proof.
  induction fuel as [|n IH]; intros s Hl.
  - destruct s; simpl in Hl; [|lia]. exists "". simpl. split; auto. split; [exists []; auto|]. reflexivity.
  - cbn [trim_with]. destruct (strip_suffix space_runes s) as [s'|] eqn:E.
    + destruct (strip_suffix_spec _ _ _ E) as (x & Hx & ->).
      assert (Lx := space_nonempty _ Hx). rewrite length_append in Hl.
      destruct (IH s') as (l & E1 & (xs & -> & Hxs) & E2); [lia|].
      exists (String.concat "" xs ++ x). split; [rewrite <- append_assoc; congruence|]. split; auto.
      exists (xs ++ [x])%list. split; [now rewrite concat_snoc|]. apply Forall_app; auto.
    + exists "". rewrite append_nil_r. split; auto. split; [exists []; auto|]. exact E.
Qed.

Lemma TrimSpace_trimmed s : trimmed s (TrimSpace s).
Proof.
  unfold TrimSpace.
  destruct (trim_left_spec (String.length s) s) as (l & E1 & Hl & N1); auto.
  set (s1 := trim_with (strip_prefix space_runes) (String.length s) s) in *.
  destruct (trim_right_spec (String.length s1) s1) as (r & E2 & Hr & N2); auto.
  set (m := trim_with (strip_suffix space_runes) (String.length s1) s1) in *.
  exists l, r. split; [congruence|]. split; auto. split; auto.
  intros x m' Hx. split.
  - intros E. apply (strip_prefix_none _ _ N1 x (m' ++ r) Hx). rewrite E2, E. now rewrite append_assoc.
  - apply (strip_suffix_none _ _ N2); auto.
Qed.

Lemma trim_with_none strip fuel s : strip s = None -> trim_with strip fuel s = s.
Proof. destruct fuel; simpl; auto. now intros ->. Qed.

Lemma TrimSpace_ends s : strip_prefix space_runes (TrimSpace s) = None /\ strip_suffix space_runes (TrimSpace s) = None.
Proof.
  destruct (TrimSpace_trimmed s) as (l & r & _ & _ & _ & H). split.
  - destruct (strip_prefix space_runes (TrimSpace s)) as [x|] eqn:E; auto.
    apply strip_prefix_spec in E. destruct E as (p & Hp & E). now destruct (H p x Hp).
  - destruct (strip_suffix space_runes (TrimSpace s)) as [x|] eqn:E; auto.
    apply strip_suffix_spec in E. destruct E as (p & Hp & E). now destruct (H p x Hp).
Qed.

Lemma TrimSpace_idem s : TrimSpace (TrimSpace s) = TrimSpace s.
Proof.
  destruct (TrimSpace_ends s) as [H1 H2]. set (m := TrimSpace s) in *. unfold TrimSpace.
  rewrite (trim_with_none _ _ m H1). now apply trim_with_none.
Qed.

Lemma doc_recorded d : (if String.eqb (FormatDoc d) "" then "" else TrimSpace (FormatDoc d)) = FormatDoc d.
Proof.
  unfold FormatDoc. rewrite TrimSpace_idem.
  destruct (String.eqb_spec (TrimSpace (TrimPrefix d "//")) ""); auto.
Qed.

Lemma definition_doc env id x : definition_of env id x ->
  f_doc (ParseResultToField x) = FormatDoc (te_doc env id).
Proof.
  intros (p & n & l & u & _ & _ & ->). rewrite parse_eq. simpl. apply doc_recorded.
Qed.

(** No comment comes with the analysis of a type itself. *)
Lemma result_doc n : forall env add pkg name t l r,
  TypeResult n env add pkg name t = (l, Ok r) -> q_doc r = "".
Proof.
  induction n as [|n IH]; intros env add pkg name t l r E; [discriminate|].
  destruct t as [b k|id|e|e|len e|k e|fs| |]; cbn [TypeResult] in E; wsplit;
    try (apply finish_ok in O; destruct O as [-> _]; destruct (String.eqb name ""); reflexivity).
  - apply finish_ok in O. destruct O as [-> _].
    assert (q_doc a = "").
    { destruct (String.eqb name ""); [now injection O0 as <-|].
      destruct pkg as [p|]; [|discriminate]. simpl in O0.
      destruct (te_loads env p); [|discriminate]. now injection O0 as <-. }
    destruct (String.eqb name ""); auto.
  - eauto.
Qed.

Lemma struct_fields_entries env an fs : forall l kvs,
  struct_fields env an fs = (l, Ok kvs) ->
  Forall2 (fun f kv => exists l1 r r' , an (gf_type f) = (l1, Ok r) /\ field_doc f r = Ok r' /\
             kv = (gf_name f, res_with_tags (gf_embedded f) (fst (ParseStructTag (gf_name f) (gf_tag f)))
                                            (snd (ParseStructTag (gf_name f) (gf_tag f))) r'))
          (filter gf_exported fs) kvs.
Proof.
  induction fs as [|f r IH]; intros l kvs E; simpl in E.
  - wsplit. injection O as <-. constructor.
  - simpl. destruct (gf_exported f) eqn:X; [|eauto]. wsplit. injection O as <-.
    match goal with H : struct_field env an f = _ |- _ => unfold struct_field in H end. wsplit.
    constructor.
    + match goal with H : Ok (gf_name f, _) = Ok _ |- _ => injection H as <- end. eauto 8.
    + eauto.
Qed.

Lemma field_docs n env add pkg name fs l r f :
  TypeResult n env add pkg name (GStruct fs) = (l, Ok r) -> In f fs -> gf_exported f = true ->
  exists x, In (gf_name f, x) (f_structFields (ParseResultToField r)) /\
    f_doc x = match described_in env pkg (gf_type f) with
              | None => ""
              | Some p => match gf_at f p with Some (NField _ d) => FormatDoc d | _ => "" end
              end.
Proof.
  intros E Hf X. destruct n as [|n]; [discriminate|]. cbn [TypeResult] in E. wsplit.
  apply struct_fields_entries in W. apply finish_ok in O. destruct O as [-> _].
  assert (Hin : In f (filter gf_exported fs)) by (apply filter_In; auto).
  assert (H : exists kv, In kv a /\ exists l1 r r', TypeResult n env add pkg "" (gf_type f) = (l1, Ok r) /\
    field_doc f r = Ok r' /\
             kv = (gf_name f, res_with_tags (gf_embedded f) (fst (ParseStructTag (gf_name f) (gf_tag f)))
                                            (snd (ParseStructTag (gf_name f) (gf_tag f))) r')).
  { clear - W Hin. induction W as [|g kv gs kvs H W IH]; [destruct Hin|].
    destruct Hin as [->|Hin]; [exists kv; simpl; eauto|].
    destruct (IH Hin) as (kv' & Hkv & H'). exists kv'. simpl; auto. }
  destruct H as (kv & Hkv & ly & r1 & r' & E1 & E2 & ->).
  eexists. split.
  - rewrite parse_eq. cbn [f_structFields]. apply in_map_iff. eexists. split.
    2:{ destruct (String.eqb name ""); exact Hkv. }
    reflexivity.
  - cbn [snd]. rewrite parse_eq. cbn [f_doc res_with_tags q_doc].
    assert (D := result_doc _ _ _ _ _ _ _ _ E1). assert (P := result_package _ _ _ _ _ _ _ _ E1).
    unfold field_doc in E2. rewrite P in E2. destruct (described_in env pkg (gf_type f)) as [p|].
    + destruct (gf_at f p) as [[[|nm nms] d|]|]; try discriminate; injection E2 as <-.
      * cbn [res_with_doc q_doc]. apply doc_recorded.
      * now rewrite D.
      * now rewrite D.
    + injection E2 as <-. now rewrite D.
Qed.
