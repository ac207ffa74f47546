(** C11-C14: struct tags, binding tags, content types. *)
From Coq Require Import List String Ascii Bool ZArith Permutation.
From Verif Require Import BaseStr BaseMap M_Types M_Tags S_Tags P_Tags.
Import ListNotations.
Local Open Scope string_scope.

(** Looking up a key agrees with the grammar of struct tags. *)
Theorem C11_lookup_exact : forall tag k v, Lookup tag k = Some v <-> tag_has tag k v.
Proof. exact lookup_spec. Qed.
Print Assumptions C11_lookup_exact.

(** C11 *)
Theorem C11_usable_bindings : forall field tag, field <> "" ->
  fst (ParseStructTag field tag) <> [] /\
  NoDup (map fst (fst (ParseStructTag field tag))) /\
  (In NoBindingTag (map fst (fst (ParseStructTag field tag))) <->
     forall k v, In k BindingTags -> ~ tag_has tag k v) /\
  (forall k, In k BindingTags ->
     (In k (map fst (fst (ParseStructTag field tag))) <-> exists v, tag_has tag k v)) /\
  (forall t b, In (t, b) (fst (ParseStructTag field tag)) ->
     (t = NoBindingTag \/ In t BindingTags) /\
     (bt_notShown b = true \/ bt_name b <> "")).
Proof.
  intros field tag Hf. split; [apply parse_tag_not_nil|]. split; [apply parse_tag_keys|].
  assert (HN : ~ In NoBindingTag BindingTags) by (simpl; intuition discriminate).
  split; [|split].
  - split.
    + intros H. apply in_map_iff in H as ([t b] & Ht & H). simpl in Ht. subst t.
      apply parse_tag_in in H as [(v & H & _)|(_ & _ & H)]; tauto.
    + intros H. apply in_map_iff. exists (NoBindingTag, mkBT field false false). split; auto.
      apply parse_tag_in. right. auto.
  - intros k Hk. split.
    + intros H. apply in_map_iff in H as ([t b] & Ht & H). simpl in Ht. subst t.
      apply parse_tag_in in H as [(v & _ & H & _)|(-> & _ & _)]; [eauto|tauto].
    + intros (v & Hv). apply in_map_iff. exists (k, newBindingTag field v). split; auto.
      apply parse_tag_in. left. eauto.
  - intros t b H. apply parse_tag_in in H as [(v & Ht & _ & ->)|(-> & -> & _)]; simpl; auto.
    split; auto. destruct (new_binding_usable field v Hf) as [[H _]|[_ H]]; auto.
Qed.
Print Assumptions C11_usable_bindings.

Definition C11_tag := "json:""id,omitempty"" xml:""-"" validate:""required"" form:"",omitempty""".
Example C11_nontrivial :
  ParseStructTag "ID" C11_tag =
  ([("form", mkBT "ID" false true); ("json", mkBT "id" false true); ("xml", mkBT "" true false)],
   [("validate", true)]).
Proof. reflexivity. Qed.

(** C12, full claim: for every key and value the recorded binding does what the encoder does.
    False for a value starting with a dash and a comma, which names the field "-" ... *)
Theorem C12_encoder_name_refuted :
  exists field tag v b, tag_has tag "json" v /\ In ("json", b) (fst (ParseStructTag field tag)) /\
    encoder_name "json" field v = Some "-" /\ bt_notShown b = true.
Proof.
  exists "ID", "json:""-,""", "-,", (mkBT "" true false).
  split; [now apply lookup_spec|]. split; [left; reflexivity|]. split; reflexivity.
Qed.
Print Assumptions C12_encoder_name_refuted.

(** ... and for YAML without an explicit name, where yaml.v3 uses the lower-cased field name. *)
Theorem C12_yaml_default_refuted :
  exists field tag v b n, tag_has tag "yaml" v /\ In ("yaml", b) (fst (ParseStructTag field tag)) /\
    encoder_name "yaml" field v = Some n /\ bt_name b <> n.
Proof.
  exists "ID", "yaml:"",omitempty""", ",omitempty", (mkBT "ID" false true), "id".
  split; [now apply lookup_spec|]. split; [left; reflexivity|]. split; [reflexivity|discriminate].
Qed.
Print Assumptions C12_yaml_default_refuted.

(** In all other cases the binding and the encoder agree. *)
Theorem C12_encoder_name_partial : forall field tag key v,
  In key BindingTags -> tag_has tag key v ->
  (before_comma v = "-" -> v = "-") ->
  (key = YAMLBindingTag -> before_comma v <> "") ->
  exists b, In (key, b) (fst (ParseStructTag field tag)) /\
    match encoder_name key field v with
    | None => bt_notShown b = true
    | Some n => bt_notShown b = false /\ bt_name b = n
    end.
Proof.
  intros field tag key v Hk Hv H1 H2. exists (newBindingTag field v). split.
  - apply parse_tag_in. left. eauto.
  - now apply new_binding_encoder.
Qed.
Print Assumptions C12_encoder_name_partial.

Example C12_nontrivial :
  tag_has C11_tag "json" "id,omitempty" /\ before_comma "id,omitempty" = "id" /\
  encoder_name "json" "ID" "id,omitempty" = Some "id" /\
  tag_has C11_tag "xml" "-" /\ encoder_name "xml" "ID" "-" = None /\
  tag_has C11_tag "form" ",omitempty" /\ encoder_name "form" "ID" ",omitempty" = Some "ID".
Proof. repeat split; now apply lookup_spec. Qed.

(** C13 *)
Theorem C13_content_types_back : forall t ct,
  In ct (BindingTagToContentTypes t) -> ContentTypeToBindingTag ct = t.
Proof. exact content_types_back. Qed.
Print Assumptions C13_content_types_back.

Theorem C13_known_or_no_binding : forall ct,
  ContentTypeToBindingTag ct = NoBindingTag \/
  In ct (BindingTagToContentTypes (ContentTypeToBindingTag ct)).
Proof.
  intros ct. destruct (String.eqb (ContentTypeToBindingTag ct) NoBindingTag) eqn:E.
  - left. now apply String.eqb_eq.
  - right. apply content_type_forth. now apply String.eqb_neq.
Qed.
Print Assumptions C13_known_or_no_binding.

Theorem C13_unknown_no_binding : forall ct,
  (forall t, ~ In ct (BindingTagToContentTypes t)) <-> ContentTypeToBindingTag ct = NoBindingTag.
Proof.
  intros ct. split.
  - intros H. destruct (C13_known_or_no_binding ct) as [E|E]; auto. now apply H in E.
  - intros H t Hin. pose proof (content_types_back _ _ Hin) as E. rewrite H in E. subst t. destruct Hin.
Qed.
Print Assumptions C13_unknown_no_binding.

Example C13_nontrivial :
  map ContentTypeToBindingTag (BindingTagToContentTypes "form") = ["form"; "form"] /\
  map (fun t => List.length (BindingTagToContentTypes t)) BindingTags = [0; 2; 0; 1; 1; 1] /\
  ContentTypeToBindingTag "text/plain" = "".
Proof. repeat split. Qed.

(** C14: the answer is characterised without reference to any order ... *)
Theorem C14_tags_exact : forall fields, parsed_fields fields ->
  NoDup (fst (ExtractBindingTags fields)) /\
  ((exists t, has_tag fields t) -> forall t, In t (fst (ExtractBindingTags fields)) <-> has_tag fields t) /\
  (~ (exists t, has_tag fields t) -> fst (ExtractBindingTags fields) = BindingTags) /\
  (snd (ExtractBindingTags fields) = true <-> bindings_differ fields).
Proof.
  intros fields H. split; [apply extract_types_nodup|].
  split; [intros He t; now apply extract_types|]. split; [apply extract_no_types|].
  apply extract_unique. now apply parsed_nonzero.
Qed.
Print Assumptions C14_tags_exact.

(** ... hence two iteration orders give the same set and the same verdict. *)
Theorem C14_order_independent : forall fields fields', parsed_fields fields ->
  reordered fields fields' ->
  Permutation (fst (ExtractBindingTags fields)) (fst (ExtractBindingTags fields')) /\
  snd (ExtractBindingTags fields) = snd (ExtractBindingTags fields').
Proof. intros f f' H. apply extract_reordered. now apply parsed_nonzero. Qed.
Print Assumptions C14_order_independent.

Definition C14_field (name tag : string) : Field :=
  mkField "" "string" "" [] false false "" "" 0 "" "" "" [] (fst (ParseStructTag name tag)) [] "".
Definition C14_fields :=
  [("ID", C14_field "ID" "json:""id"" xml:""Id"""); ("Name", C14_field "Name" "form:""name""")].
Example C14_nontrivial :
  parsed_fields C14_fields /\ reordered C14_fields (rev C14_fields) /\
  ExtractBindingTags C14_fields = (["json"; "xml"; "form"], true) /\
  ExtractBindingTags (rev C14_fields) = (["form"; "json"; "xml"], true).
Proof.
  split; [|split; [|split; reflexivity]].
  - intros k f [E|[E|[]]]; injection E as <- <-.
    + exists "ID", "json:""id"" xml:""Id""". split; [discriminate|apply Permutation_refl].
    + exists "Name", "form:""name""". split; [discriminate|apply Permutation_refl].
  - exists (rev C14_fields). split; [apply Permutation_rev|].
    repeat constructor; apply Permutation_refl.
Qed.
