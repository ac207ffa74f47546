From Coq Require Import List String Ascii Bool ZArith Arith Lia Permutation.
From Verif Require Import BaseStr BaseMap M_Types M_Tags S_Tags.
Import ListNotations.
Local Open Scope string_scope.

(** ** Lookup *)
Definition stops_key (t : string) : Prop :=
  match t with EmptyString => True | String c _ => key_char c = false end.

Lemma scan_key_spec s k t :
  scan_key s = (k, t) <-> s = k ++ t /\ all_key k /\ stops_key t.
Proof.
  revert k t. induction s as [|c r IH]; intros k t; simpl.
  - split.
    + injection 1 as <- <-. simpl; auto.
    + intros (E & _ & _). symmetry in E. apply append_eq_nil in E as [-> ->]. reflexivity.
  - destruct (key_char c) eqn:Ec.
    + destruct (scan_key r) as [k1 t1] eqn:E1. split.
      * injection 1 as <- <-. destruct (proj1 (IH k1 t1) eq_refl) as (-> & Hk & Ht).
        simpl. auto.
      * intros (E & Hk & Ht). destruct k as [|d k].
        -- simpl in E. subst t. simpl in Ht. congruence.
        -- simpl in E. injection E as -> ->. simpl in Hk. destruct Hk as [_ Hk].
           assert ((k1, t1) = (k, t)) as H by (apply IH; auto). now injection H as -> ->.
    + split.
      * injection 1 as <- <-. simpl; auto.
      * intros (E & Hk & Ht). destruct k as [|d k].
        -- simpl in E. now subst t.
        -- simpl in E. injection E as -> ->. simpl in Hk. destruct Hk. congruence.
Qed.

Lemma scan_key_app k t : all_key k -> stops_key t -> scan_key (k ++ t) = (k, t).
Proof. intros. apply scan_key_spec; auto. Qed.

Lemma scan_quoted_sound n s b t :
  String.length s <= n -> scan_quoted s = Some (b, t) -> s = b ++ String dquote t /\ quoted_text b.
Proof.
  revert s b t. induction n as [|n IH]; intros s b t Hl H.
  - destruct s; simpl in *; [discriminate|lia].
  - destruct s as [|c r]; [discriminate|]. cbn [scan_quoted] in H. simpl in Hl.
    destruct (Ascii.eqb c dquote) eqn:Eq.
    + injection H as <- <-. apply Ascii.eqb_eq in Eq as ->. split; [reflexivity|constructor].
    + destruct (Ascii.eqb c backslash) eqn:Eb.
      * destruct r as [|d r']; [discriminate|].
        destruct (scan_quoted r') as [[b1 t1]|] eqn:E; [|discriminate]. injection H as <- <-.
        simpl in Hl. apply IH in E as [-> Hq]; [|lia]. apply Ascii.eqb_eq in Eb as ->.
        split; [reflexivity|now constructor].
      * destruct (scan_quoted r) as [[b1 t1]|] eqn:E; [|discriminate]. injection H as <- <-.
        apply IH in E as [-> Hq]; [|lia]. apply Ascii.eqb_neq in Eb, Eq.
        split; [reflexivity|now constructor].
Qed.

Lemma scan_quoted_complete b t : quoted_text b -> scan_quoted (b ++ String dquote t) = Some (b, t).
Proof.
  induction 1 as [|c s H1 H2 Hq IH|d s Hq IH].
  - reflexivity.
  - cbn [append scan_quoted]. apply Ascii.eqb_neq in H1, H2. now rewrite H1, H2, IH.
  - cbn [append scan_quoted]. change (Ascii.eqb backslash dquote) with false.
    change (Ascii.eqb backslash backslash) with true. cbn iota. now rewrite IH.
Qed.

Lemma skip_spaces_spec s : exists n, s = spaces n ++ skip_spaces s.
Proof.
  induction s as [|c r [n IH]]; [now exists O|]. simpl.
  destruct (Ascii.eqb c " ") eqn:E.
  - apply Ascii.eqb_eq in E as ->. exists (S n). simpl. now f_equal.
  - now exists O.
Qed.

Lemma skip_spaces_app n s : skip_spaces (spaces n ++ s) = skip_spaces s.
Proof. induction n; simpl; auto. Qed.

Lemma skip_spaces_key k s : k <> "" -> all_key k -> skip_spaces (k ++ s) = k ++ s.
Proof.
  destruct k as [|c k]; [congruence|]. intros _ [Hc _]. simpl.
  destruct (Ascii.eqb c " ") eqn:E; auto. apply Ascii.eqb_eq in E as ->. discriminate.
Qed.

Lemma length_spaces n : String.length (spaces n) = n.
Proof. induction n; simpl; auto. Qed.

Lemma tag_pair_app n k text rest :
  tag_pair n k text ++ rest
  = spaces n ++ (k ++ String ":" (String dquote (text ++ String dquote rest))).
Proof. unfold tag_pair. rewrite !append_assoc. simpl. rewrite append_assoc. reflexivity. Qed.

Lemma lookup_complete tag k v :
  tag_has tag k v -> forall fuel, String.length tag < fuel -> lookup_tag fuel tag k = Some v.
Proof.
  induction 1 as [n k text rest v Hk1 Hk2 Hq Hu|n k' text rest k v Hk1 Hk2 Hq Hne Hh IH];
    intros fuel Hf; (destruct fuel as [|fuel]; [lia|]); rewrite tag_pair_app in *;
    cbn [lookup_tag]; rewrite skip_spaces_app, skip_spaces_key by auto.
  - rewrite scan_key_app by (auto; reflexivity).
    destruct k as [|c k]; [congruence|]. rewrite scan_quoted_complete by auto.
    simpl Ascii.eqb. rewrite String.eqb_refl. exact Hu.
  - rewrite scan_key_app by (auto; reflexivity).
    destruct k' as [|c k']; [congruence|]. rewrite scan_quoted_complete by auto.
    simpl Ascii.eqb. cbn iota.
    destruct (String.eqb k (String c k')) eqn:E; [apply String.eqb_eq in E; congruence|].
    apply IH. rewrite !length_append in Hf. simpl in Hf. rewrite !length_append in Hf. simpl in Hf. lia.
Qed.

Lemma lookup_sound fuel tag k v : lookup_tag fuel tag k = Some v -> tag_has tag k v.
Proof.
  revert tag. induction fuel as [|fuel IH]; intros tag H; [discriminate|].
  cbn [lookup_tag] in H. destruct (skip_spaces_spec tag) as [n En].
  destruct (scan_key (skip_spaces tag)) as [name rest] eqn:Es.
  apply scan_key_spec in Es as (Es & Hk & _).
  destruct name as [|c name]; [discriminate|].
  destruct rest as [|colon [|quote after]]; [discriminate|discriminate|].
  destruct (Ascii.eqb colon ":" && Ascii.eqb quote dquote) eqn:Ec; [|discriminate].
  apply andb_true_iff in Ec as [E1 E2]. apply Ascii.eqb_eq in E1, E2. subst colon quote.
  destruct (scan_quoted after) as [[body tag']|] eqn:Eq; [|discriminate].
  apply (scan_quoted_sound _ _ _ _ (le_n _)) in Eq as [-> Hq].
  rewrite En, Es.
  replace (spaces n ++ String c name ++ String ":" (String dquote (body ++ String dquote tag')))
    with (tag_pair n (String c name) body ++ tag') by apply tag_pair_app.
  destruct (String.eqb k (String c name)) eqn:Ek.
  - apply String.eqb_eq in Ek as ->. constructor; auto; discriminate.
  - apply String.eqb_neq in Ek. apply th_later; auto; discriminate.
Qed.

Lemma lookup_spec tag k v : Lookup tag k = Some v <-> tag_has tag k v.
Proof.
  unfold Lookup. split.
  - apply lookup_sound.
  - intros H. apply lookup_complete; auto.
Qed.

Lemma lookup_none tag k : Lookup tag k = None <-> (forall v, ~ tag_has tag k v).
Proof.
  split.
  - intros H v Hv. apply lookup_spec in Hv. congruence.
  - intros H. destruct (Lookup tag k) as [v|] eqn:E; auto. apply lookup_spec in E. now apply H in E.
Qed.

(** ** ParseStructTag *)
Lemma parse_bindings_in field tag types t b :
  In (t, b) (parseBindings field tag types) <->
  exists v, In t types /\ Lookup tag t = Some v /\ b = newBindingTag field v.
Proof.
  induction types as [|a types IH]; cbn [parseBindings In].
  { split; [intros []|intros (v & [] & _)]. }
  destruct (Lookup tag a) as [v|] eqn:E; cbn [In]; rewrite IH; split.
  - intros [H|(w & H1 & H2)]; [injection H as -> <-; eauto|eauto].
  - intros (w & [->|H1] & H2 & H3); [left; rewrite E in H2; injection H2 as ->; congruence|eauto].
  - intros (w & H1 & H2). eauto.
  - intros (w & [->|H1] & H2 & H3); [congruence|eauto].
Qed.

Lemma parse_bindings_keys field tag types :
  NoDup types -> NoDup (map fst (parseBindings field tag types)).
Proof.
  induction 1 as [|a types Hn HN IH]; simpl; [constructor|].
  destruct (Lookup tag a) eqn:E; auto. simpl. constructor; auto.
  intros Hin. apply in_map_iff in Hin as ([t b] & Ht & Hin). simpl in Ht. subst t.
  apply parse_bindings_in in Hin as (v & Hv & _). auto.
Qed.

Lemma binding_tags_nodup : NoDup BindingTags.
Proof. repeat constructor; simpl; intuition discriminate. Qed.

Lemma parse_tag_in field tag t b :
  In (t, b) (fst (ParseStructTag field tag)) <->
  (exists v, In t BindingTags /\ tag_has tag t v /\ b = newBindingTag field v) \/
  (t = NoBindingTag /\ b = mkBT field false false /\
   forall k v, In k BindingTags -> ~ tag_has tag k v).
Proof.
  unfold ParseStructTag. cbn [fst].
  assert (Hin : forall t b, In (t, b) (parseBindings field tag BindingTags) <->
            exists v, In t BindingTags /\ tag_has tag t v /\ b = newBindingTag field v).
  { intros t' b'. rewrite parse_bindings_in. split; intros (v & H1 & H2 & H3); exists v;
      (split; [auto|split; [now apply lookup_spec|auto]]). }
  destruct (parseBindings field tag BindingTags) as [|x l] eqn:E; cbn iota.
  - split.
    + intros [H|[]]. injection H as <- <-. right. split; auto. split; auto.
      intros k v Hk Hv. assert (In (k, newBindingTag field v) []) as [] by (apply Hin; eauto).
    + intros [H|(-> & -> & _)]; [apply Hin in H as []|left; auto].
  - rewrite Hin. split; [auto|]. intros [H|(_ & _ & H)]; auto.
    exfalso. destruct x as [t' b']. assert (In (t', b') ((t', b') :: l)) as Hx by (left; auto).
    apply Hin in Hx as (v & H1 & H2 & _). eapply H; eauto.
Qed.

Lemma parse_tag_keys field tag : NoDup (map fst (fst (ParseStructTag field tag))).
Proof.
  unfold ParseStructTag. cbn [fst].
  pose proof (parse_bindings_keys field tag BindingTags binding_tags_nodup) as H.
  destruct (parseBindings field tag BindingTags); auto. repeat constructor; auto.
Qed.

Lemma parse_tag_not_nil field tag : fst (ParseStructTag field tag) <> [].
Proof. unfold ParseStructTag. cbn [fst]. now destruct (parseBindings field tag BindingTags). Qed.

Lemma new_binding_usable field v :
  field <> "" ->
  (bt_notShown (newBindingTag field v) = true /\ bt_name (newBindingTag field v) = "") \/
  (bt_notShown (newBindingTag field v) = false /\ bt_name (newBindingTag field v) <> "").
Proof.
  intros Hf. unfold newBindingTag.
  destruct (String.eqb (hd "" (split "," v)) "") eqn:E1; simpl; [right; auto|].
  destruct (String.eqb (hd "" (split "," v)) "-") eqn:E2; simpl; [left; auto|].
  right. split; auto. now apply String.eqb_neq in E1.
Qed.

Lemma parse_tag_nonzero field tag t b :
  field <> "" -> In (t, b) (fst (ParseStructTag field tag)) -> b <> bt_zero.
Proof.
  intros Hf H. apply parse_tag_in in H as [(v & _ & _ & ->)|(_ & -> & _)].
  - destruct (new_binding_usable field v Hf) as [[H1 _]|[_ H2]]; intros E; rewrite E in *;
      simpl in *; congruence.
  - intros E. injection E. auto.
Qed.

(** *** names *)
Lemma new_binding_encoder key field v :
  (before_comma v = "-" -> v = "-") ->
  (key = YAMLBindingTag -> before_comma v <> "") ->
  match encoder_name key field v with
  | None => bt_notShown (newBindingTag field v) = true
  | Some n => bt_notShown (newBindingTag field v) = false /\ bt_name (newBindingTag field v) = n
  end.
Proof.
  intros H1 H2. unfold encoder_name, newBindingTag. fold (before_comma v).
  destruct (String.eqb v "-") eqn:Ev.
  - apply String.eqb_eq in Ev as ->. reflexivity.
  - destruct (String.eqb (before_comma v) "") eqn:E.
    + apply String.eqb_eq in E. destruct (String.eqb key YAMLBindingTag) eqn:Ek.
      * apply String.eqb_eq in Ek. now apply H2 in Ek.
      * simpl; auto.
    + destruct (String.eqb (before_comma v) "-") eqn:E2; simpl; auto.
      apply String.eqb_eq in E2. apply H1 in E2. subst. discriminate.
Qed.

(** ** ExtractBindingTags *)
Definition adjoin (types : list string) (t : string) : list string :=
  if str_in t types then types else (types ++ [t])%list.

Lemma adjoin_in types t x : In x (adjoin types t) <-> In x types \/ x = t.
Proof.
  unfold adjoin. destruct (str_in t types) eqn:E.
  - apply str_in_spec in E. split; [auto|]. intros [H|H]; subst; auto.
  - rewrite in_app_iff. simpl. intuition.
Qed.

Lemma adjoin_nodup types t : NoDup types -> NoDup (adjoin types t).
Proof.
  unfold adjoin. intros H. destruct (str_in t types) eqn:E; auto.
  apply str_in_false in E. apply Permutation_NoDup with (l := t :: types).
  - apply Permutation_cons_append.
  - constructor; auto.
Qed.

(** The verdict for one field. *)
Fixpoint changes (m : BindingTagMap) (prev : BindingTag) : bool :=
  match m with
  | [] => false
  | (_, b) :: r => (negb (bt_eqb prev bt_zero) && negb (bt_eqb b prev)) || changes r b
  end.

Lemma extract_field_eq m types uniq prev :
  extractField m types uniq prev = (fold_left adjoin (map fst m) types, uniq || changes m prev).
Proof.
  revert types uniq prev. induction m as [|[t b] m IH]; intros types uniq prev; simpl.
  - now rewrite orb_false_r.
  - rewrite IH. f_equal. destruct uniq; simpl.
    + now rewrite andb_false_r.
    + rewrite andb_true_r. destruct (bt_eqb prev bt_zero); simpl; auto.
Qed.

Lemma extract_fields_eq fields types uniq :
  extractFields fields types uniq =
  (fold_left adjoin (flat_map (fun kf => map fst (f_bindingTags (snd kf))) fields) types,
   uniq || existsb (fun kf => changes (f_bindingTags (snd kf)) bt_zero) fields).
Proof.
  revert types uniq. induction fields as [|[k f] fields IH]; intros types uniq; simpl.
  - now rewrite orb_false_r.
  - rewrite extract_field_eq, IH, fold_left_app, orb_assoc. reflexivity.
Qed.

Lemma fold_adjoin_in l types x : In x (fold_left adjoin l types) <-> In x types \/ In x l.
Proof.
  revert types. induction l as [|a l IH]; intros types; simpl; [tauto|].
  rewrite IH, adjoin_in. intuition.
Qed.

Lemma fold_adjoin_nodup l types : NoDup types -> NoDup (fold_left adjoin l types).
Proof. revert types. induction l as [|a l IH]; intros types H; simpl; auto. apply IH, adjoin_nodup, H. Qed.

Lemma changes_false m prev :
  prev <> bt_zero -> (forall t b, In (t, b) m -> b <> bt_zero) ->
  (changes m prev = false <-> forall t b, In (t, b) m -> b = prev).
Proof.
  revert prev. induction m as [|[t b] m IH]; intros prev Hp Hm; simpl; [split; tauto|].
  assert (Hb : b <> bt_zero) by (eapply Hm; left; eauto).
  assert (bt_eqb prev bt_zero = false) as ->.
  { destruct (bt_eqb prev bt_zero) eqn:E; auto. apply bt_eqb_eq in E. congruence. }
  simpl. rewrite orb_false_iff, negb_false_iff, bt_eqb_eq, IH;
    [|auto|intros; eapply Hm; right; eauto]. split.
  - intros [-> H] t' b' [E|Hin]; [congruence|eauto].
  - intros H. assert (b = prev) as -> by (eapply H; left; eauto). split; auto.
    intros t' b' Hin. eapply H. right; eauto.
Qed.

Lemma changes_true m :
  (forall t b, In (t, b) m -> b <> bt_zero) ->
  (changes m bt_zero = true <->
   exists t1 b1 t2 b2, In (t1, b1) m /\ In (t2, b2) m /\ b1 <> b2).
Proof.
  intros Hm. destruct m as [|[t b] m]; simpl.
  - split; [discriminate|]. intros (? & ? & ? & ? & [] & _).
  - assert (Hb : b <> bt_zero) by (eapply Hm; left; eauto).
    assert (Hm' : forall t b, In (t, b) m -> b <> bt_zero) by (intros; eapply Hm; right; eauto).
    pose proof (changes_false m b Hb Hm') as Hc.
    change (negb (bt_eqb bt_zero bt_zero)) with false. cbn [andb orb].
    destruct (changes m b) eqn:E.
    + split; auto. intros _.
      destruct (forallb (fun tb => bt_eqb (snd tb) b) m) eqn:Ef.
      * exfalso. rewrite forallb_forall in Ef.
        assert (true = false); [|discriminate]. apply Hc. intros t' b' Hin.
        apply bt_eqb_eq. now apply (Ef (t', b')).
      * assert (exists tb, In tb m /\ bt_eqb (snd tb) b = false) as ([t' b'] & Hin & Hne).
        { clear - Ef. induction m as [|x m IH]; [discriminate|]. simpl in Ef.
          destruct (bt_eqb (snd x) b) eqn:Ex; [|exists x; split; [left; auto|auto]].
          destruct (IH Ef) as (y & H1 & H2). exists y. split; [right; auto|auto]. }
        exists t, b, t', b'. repeat split; [left; auto|right; auto|].
        intros <-. simpl in Hne. assert (bt_eqb b b = true) by now apply bt_eqb_eq. congruence.
    + split; [discriminate|]. intros (t1 & b1 & t2 & b2 & H1 & H2 & Hne). exfalso. apply Hne.
      assert (H : forall t' b', In (t', b') m -> b' = b) by now apply Hc.
      assert (b1 = b) as -> by (destruct H1 as [H1|H1]; [congruence|eauto]).
      destruct H2 as [H2|H2]; [congruence|symmetry; eauto].
Qed.

Definition nonzero_fields (fields : list (string * Field)) : Prop :=
  forall k f t b, In (k, f) fields -> In (t, b) (f_bindingTags f) -> b <> bt_zero.

Lemma parsed_nonzero fields : parsed_fields fields -> nonzero_fields fields.
Proof.
  intros H k f t b Hf Hb. destruct (H k f Hf) as (name & tag & Hn & Hp).
  eapply parse_tag_nonzero; eauto. eapply Permutation_in; [apply Permutation_sym|]; eauto.
Qed.

Lemma extract_types fields t :
  (exists t', has_tag fields t') ->
  (In t (fst (ExtractBindingTags fields)) <-> has_tag fields t).
Proof.
  intros [t' Ht']. unfold ExtractBindingTags. rewrite extract_fields_eq.
  assert (Hin : forall x, In x (fold_left adjoin (flat_map (fun kf => map fst (f_bindingTags (snd kf))) fields) [])
            <-> has_tag fields x).
  { intros x. rewrite fold_adjoin_in, in_flat_map. unfold has_tag. split.
    - intros [[]|([k f] & Hf & Hx)]. apply in_map_iff in Hx as ([y b] & Hy & Hx). simpl in *. subst.
      exists k, f, b. auto.
    - intros (k & f & b & Hf & Hx). right. exists (k, f). split; auto.
      apply in_map_iff. exists (x, b). auto. }
  destruct (fold_left adjoin _ []) eqn:E.
  - apply Hin in Ht' as [].
  - simpl fst. apply Hin.
Qed.

Lemma extract_no_types fields :
  ~ (exists t', has_tag fields t') -> fst (ExtractBindingTags fields) = BindingTags.
Proof.
  intros Hn. unfold ExtractBindingTags. rewrite extract_fields_eq.
  destruct (fold_left adjoin _ []) as [|x l] eqn:E; auto. exfalso. apply Hn. exists x.
  assert (In x (x :: l)) as H by (left; auto). rewrite <- E, fold_adjoin_in, in_flat_map in H.
  destruct H as [[]|([k f] & Hf & Hx)]. apply in_map_iff in Hx as ([y b] & Hy & Hx). simpl in *. subst.
  exists k, f, b. auto.
Qed.

Lemma extract_types_nodup fields : NoDup (fst (ExtractBindingTags fields)).
Proof.
  unfold ExtractBindingTags. rewrite extract_fields_eq.
  pose proof (fold_adjoin_nodup (flat_map (fun kf => map fst (f_bindingTags (snd kf))) fields) [] (NoDup_nil _)) as H.
  destruct (fold_left adjoin _ []); [apply binding_tags_nodup|exact H].
Qed.

Lemma extract_unique_eq fields :
  snd (ExtractBindingTags fields) = existsb (fun kf => changes (f_bindingTags (snd kf)) bt_zero) fields.
Proof.
  unfold ExtractBindingTags. rewrite extract_fields_eq. now destruct (fold_left adjoin _ []).
Qed.

Lemma extract_unique fields :
  nonzero_fields fields -> (snd (ExtractBindingTags fields) = true <-> bindings_differ fields).
Proof.
  intros Hz. rewrite extract_unique_eq, existsb_exists. split.
  - intros ([k f] & Hf & Hc). simpl in Hc. apply changes_true in Hc; [|intros; eapply Hz; eauto].
    destruct Hc as (t1 & b1 & t2 & b2 & H). exists k, f, t1, b1, t2, b2. tauto.
  - intros (k & f & t1 & b1 & t2 & b2 & Hf & H1 & H2 & Hne). exists (k, f). split; auto.
    apply changes_true; [intros; eapply Hz; eauto|]. exists t1, b1, t2, b2. auto.
Qed.

Lemma has_tag_reordered l l' t : reordered l l' -> has_tag l t -> has_tag l' t.
Proof.
  intros (l1 & Hp & Hf) (k & f & b & Hin & Hb).
  apply (Permutation_in _ Hp) in Hin.
  induction Hf as [|[k1 f1] [k2 f2] l1 l' [Hk Hb'] Hf IH]; [destruct Hin|].
  clear Hp. simpl in *. destruct Hin as [E|Hin].
  - injection E as -> ->. exists k2, f2, b. split; [left; auto|].
    eapply Permutation_in; eauto.
  - assert (has_tag l' t) as (k' & f' & b' & H1 & H2).
    { clear IH. revert Hin. induction Hf as [|[k3 f3] [k4 f4] l1 l' [Hk4 Hb4] Hf IH]; [intros []|].
      intros [E|Hin].
      - injection E as -> ->. exists k4, f4, b. split; [left; auto|]. eapply Permutation_in; eauto.
      - destruct (IH Hin) as (k' & f' & b' & H1 & H2). exists k', f', b'. split; [right; auto|auto]. }
    exists k', f', b'. split; [right; auto|auto].
Qed.

Lemma reordered_field l l' k f :
  reordered l l' -> In (k, f) l -> exists f', In (k, f') l' /\ Permutation (f_bindingTags f) (f_bindingTags f').
Proof.
  intros (l1 & Hp & Hf) Hin. apply (Permutation_in _ Hp) in Hin. clear Hp.
  induction Hf as [|[k1 f1] [k2 f2] l1 l' [Hk Hb] Hf IH]; [destruct Hin|].
  simpl in *. destruct Hin as [E|Hin].
  - injection E as -> ->. subst. exists f2. auto.
  - destruct (IH Hin) as (f' & H1 & H2). exists f'. auto.
Qed.

Lemma reordered_sym l l' : reordered l l' -> reordered l' l.
Proof.
  intros (l1 & Hp & Hf).
  assert (exists l2, Permutation l' l2 /\ Forall2 same_field_reordered l2 l) as (l2 & H1 & H2).
  { apply Permutation_sym in Hp.
    assert (Hs : Forall2 same_field_reordered l' l1).
    { clear Hp. induction Hf as [|x y ? ? [Hk Hb]]; constructor; auto.
      split; [auto|now apply Permutation_sym]. }
    clear Hf. revert l' Hs. induction Hp; intros l0 Hs.
    - inversion Hs; subst. exists []. auto.
    - inversion Hs; subst. destruct (IHHp _ H3) as (l2 & H4 & H5).
      exists (x0 :: l2). split; [now constructor|now constructor].
    - inversion Hs as [|a ? ? ? Ha Hs']; subst. inversion Hs' as [|b ? ? ? Hb Hs'']; subst.
      eexists (b :: a :: _). split; [apply perm_swap|]. repeat constructor; try apply Ha; try apply Hb; eauto.
    - destruct (IHHp1 _ Hs) as (l2 & H1 & H2). destruct (IHHp2 _ H2) as (l3 & H3 & H4).
      exists l3. split; auto. eapply Permutation_trans; eauto. }
  exists l2. auto.
Qed.

Lemma differ_reordered l l' : reordered l l' -> bindings_differ l -> bindings_differ l'.
Proof.
  intros Hr (k & f & t1 & b1 & t2 & b2 & Hin & H1 & H2 & Hne).
  destruct (reordered_field _ _ _ _ Hr Hin) as (f' & Hin' & Hp).
  exists k, f', t1, b1, t2, b2. repeat split; auto; eapply Permutation_in; eauto.
Qed.

Lemma nonzero_reordered l l' : reordered l l' -> nonzero_fields l -> nonzero_fields l'.
Proof.
  intros Hr Hz k f t b Hin Hb. apply reordered_sym in Hr.
  destruct (reordered_field _ _ _ _ Hr Hin) as (f' & Hin' & Hp).
  eapply Hz; eauto. eapply Permutation_in; eauto.
Qed.

Lemma has_tag_dec fields : {exists t, has_tag fields t} + {~ exists t, has_tag fields t}.
Proof.
  destruct (flat_map (fun kf => map fst (f_bindingTags (snd kf))) fields) as [|t l] eqn:E.
  - right. intros (t & k & f & b & Hf & Hb).
    assert (In t []) as []. rewrite <- E. apply in_flat_map. exists (k, f). split; auto.
    apply in_map_iff. exists (t, b). auto.
  - left. exists t. assert (In t (t :: l)) as H by (left; auto). rewrite <- E in H.
    apply in_flat_map in H as ([k f] & Hf & Hx). apply in_map_iff in Hx as ([y b] & Hy & Hx).
    simpl in *. subst. exists k, f, b. auto.
Qed.

Lemma extract_reordered l l' :
  nonzero_fields l -> reordered l l' ->
  Permutation (fst (ExtractBindingTags l)) (fst (ExtractBindingTags l')) /\
  snd (ExtractBindingTags l) = snd (ExtractBindingTags l').
Proof.
  intros Hz Hr. pose proof (reordered_sym _ _ Hr) as Hr'. split.
  - destruct (has_tag_dec l) as [[t Ht]|Hn].
    + apply NoDup_Permutation; auto using extract_types_nodup. intros x.
      rewrite (extract_types l) by eauto.
      rewrite (extract_types l') by (exists t; eapply has_tag_reordered; eauto).
      split; eapply has_tag_reordered; eauto.
    + rewrite !extract_no_types; auto. intros (t & Ht). apply Hn. exists t.
      eapply has_tag_reordered; eauto.
  - pose proof (nonzero_reordered _ _ Hr Hz) as Hz'.
    destruct (snd (ExtractBindingTags l)) eqn:E1, (snd (ExtractBindingTags l')) eqn:E2; auto.
    + apply extract_unique in E1; auto. apply (differ_reordered _ _ Hr) in E1.
      apply extract_unique in E1; auto. congruence.
    + apply extract_unique in E2; auto. apply (differ_reordered _ _ Hr') in E2.
      apply extract_unique in E2; auto. congruence.
Qed.

(** ** Content types *)
Lemma content_types_back t ct : In ct (BindingTagToContentTypes t) -> ContentTypeToBindingTag ct = t.
Proof.
  unfold BindingTagToContentTypes.
  destruct (String.eqb t JSONBindingTag) eqn:E1; [apply String.eqb_eq in E1; subst; simpl; intros [<-|[]]; reflexivity|].
  destruct (String.eqb t XMLBindingTag) eqn:E2; [apply String.eqb_eq in E2; subst; simpl; intros [<-|[]]; reflexivity|].
  destruct (String.eqb t FormBindingTag) eqn:E3; [apply String.eqb_eq in E3; subst; simpl; intros [<-|[<-|[]]]; reflexivity|].
  destruct (String.eqb t YAMLBindingTag) eqn:E4; [apply String.eqb_eq in E4; subst; simpl; intros [<-|[]]; reflexivity|].
  intros [].
Qed.

Lemma content_type_forth ct :
  ContentTypeToBindingTag ct <> NoBindingTag -> In ct (BindingTagToContentTypes (ContentTypeToBindingTag ct)).
Proof.
  unfold ContentTypeToBindingTag.
  repeat match goal with
  | |- context [String.eqb ct ?s] => destruct (String.eqb ct s) eqn:?E;
      [apply String.eqb_eq in E; subst; simpl; auto|clear E]
  end. intros H. now contradiction H.
Qed.
