(** The JSON value of a document is a valid OpenAPI document. *)
From Coq Require Import List String Ascii Bool ZArith Arith Lia Permutation Sorted.
From Verif Require Import BaseStr BaseMap M_Types M_Paths M_Tags M_OpenAPI M_Json S_Collect S_Names S_Paths S_OpenAPI S_Json S_Valid
  P_Names P_FS P_Schema P_OpenAPI P_More P_JsonDoc P_Built.
Import ListNotations.
Local Open Scope string_scope.

(** ** Members *)
Lemma has_app a b k v : has (a ++ b)%list k v <-> has a k v \/ has b k v.
Proof. apply in_app_iff. Qed.
Lemma has_cons j w a k v : has ((j, w) :: a) k v <-> (j = k /\ w = v) \/ has a k v.
Proof. unfold has. cbn. split; intros [H|H]; auto; left; [injection H as -> ->; auto|destruct H as [-> ->]; auto]. Qed.
Lemma has_nil k v : has [] k v <-> False.
Proof. reflexivity. Qed.
Lemma has_text j s k v : has (text_member j s) k v <-> j = k /\ v = JStr s /\ s <> "".
Proof.
  unfold text_member. destruct (String.eqb_spec s "") as [->|N]; [rewrite has_nil; intuition|]. rewrite has_cons, has_nil. intuition congruence.
Qed.
Lemma has_flag j b k v : has (flag_member j b) k v <-> j = k /\ v = JBool true /\ b = true.
Proof. unfold flag_member. destruct b; [rewrite has_cons, has_nil|rewrite has_nil]; intuition congruence. Qed.
Lemma has_int j z k v : has (int_member j z) k v <-> j = k /\ v = JNum (itoa z) /\ z <> 0%Z.
Proof. unfold int_member. destruct (Z.eqb_spec z 0) as [->|N]; [rewrite has_nil|rewrite has_cons, has_nil]; intuition congruence. Qed.
Lemma has_list j l k v : has (list_member j l) k v <-> j = k /\ v = JArr l /\ l <> [].
Proof. unfold list_member. destruct l; [rewrite has_nil|rewrite has_cons, has_nil]; intuition congruence. Qed.
Lemma has_map j l k v : has (map_member j l) k v <-> j = k /\ v = JObj l /\ l <> [].
Proof. unfold map_member. destruct l; [rewrite has_nil|rewrite has_cons, has_nil]; intuition congruence. Qed.
Lemma has_opt j x k v : has (opt_member j x) k v <-> j = k /\ x = Some v.
Proof. unfold opt_member. destruct x; [rewrite has_cons, has_nil|rewrite has_nil]; intuition congruence. Qed.
Ltac members := repeat (rewrite ?has_app, ?has_cons, ?has_nil, ?has_text, ?has_flag, ?has_int, ?has_list, ?has_map, ?has_opt in * ).
Lemma only_has o keys : (forall k v, has o k v -> In k keys) -> only o keys.
Proof. intros H k I. apply in_map_iff in I as ((j & v) & <- & I). exact (H _ _ I). Qed.
(** What [H : has o k v] comes to, [k] being a literal. *)
Ltac member H := members; repeat match type of H with _ \/ _ => destruct H as [H|H] end;
  try (destruct H as (H & _); discriminate H); try contradiction.
Ltac some_key := apply only_has; intros k v H; members; repeat match type of H with _ \/ _ => destruct H as [H|H] end;
  try (destruct H as (<- & _); unfold schema_keys, methods; cbn [In]; tauto); try contradiction.

(** ** Schemas *)
(** Schemas that are valid if their references are. *)
Inductive shaped : Schema -> Prop :=
| shaped_ref r d : shaped (mkSchema r "" "" 0 [] [] None [] None d)
| shaped_node t f ml enum allOf items props addl desc : In t schema_types -> (t = "array" -> items <> None) -> (0 <= ml)%Z ->
    Forall shaped allOf -> (forall i, items = Some i -> shaped i) -> NoDup (map fst props) -> Forall (fun ks => shaped (snd ks)) props ->
    (forall a, addl = Some a -> shaped a) -> shaped (mkSchema "" t f ml enum allOf items props addl desc).

Section Json.
  Context (float : string -> string) (names : list string).
  Definition linked (r : string) : Prop := exists n, r = "#/components/schemas/" ++ n /\ In n names.
  Definition good (s : Schema) : Prop := shaped s /\ forall r, In r (refs s) -> linked r.
  Definition valid (s : Schema) : Prop := valid_schema names (schema_json float s).

  Lemma schema_valid s : good s -> valid s.
  Proof.
    induction s as [ref t f ml enum allOf items props addl desc IA II IP IAd] using Schema_ind'. intros (S & R). unfold valid. cbn [schema_json].
    cbn [refs s_ref s_allOf s_items s_props s_addl] in R.
    destruct (String.eqb_spec ref "") as [->|N].
    - assert (G : In t schema_types /\ (t = "array" -> items <> None) /\ (0 <= ml)%Z /\ Forall shaped allOf /\ (forall i, items = Some i -> shaped i) /\
        Forall (fun ks => shaped (snd ks)) props /\ (forall a, addl = Some a -> shaped a)).
      { inversion S; subst; [|tauto]. cbn [In schema_types]. repeat split; auto; try discriminate; lia. }
      destruct G as (Tt & Ta & Ml & Sa & Si & Sp & Sd). cbn [app] in R.
      change (text_member "$ref" "") with (@nil (string * jval)). cbn [app].
      eapply va_schema with (t := t) (ml := ml).
      + gone.
      + some_key.
      + said.
      + exact Tt.
      + intros E. destruct items as [i|]; [|now apply Ta in E]. exists (schema_json float i). members. tauto.
      + said.
      + exact Ml.
      + intros v H. member H. destruct H as (_ & -> & _). eexists; reflexivity.
      + intros v H. member H. destruct H as (_ & -> & _). eexists; reflexivity.
      + intros v H. member H. destruct H as (_ & -> & H). eexists. split; [reflexivity|]. auto.
      + intros v H. member H. destruct H as (_ & -> & H). eexists. split; [reflexivity|]. split; [auto|].
        intros x I. apply in_map_iff in I as (a & <- & I). rewrite Forall_forall in IA, Sa. apply IA; auto. split; [now apply Sa|].
        intros r Ir. apply R. rewrite !in_app_iff, in_flat_map. left. eauto.
      + intros v H. member H. destruct H as (_ & H). destruct items as [i|]; [|discriminate]. injection H as <-. apply II; auto. split; [auto|].
        intros r Ir. apply R. rewrite !in_app_iff. auto.
      + intros v H. member H. destruct H as (_ & -> & _). eexists. split; [reflexivity|]. intros k x I. apply in_map_iff in I as (a & Ea & I). injection Ea as <- <-.
        rewrite Forall_forall in IP, Sp. apply IP; auto. split; [now apply Sp|]. intros r Ir. apply R. rewrite !in_app_iff, !in_flat_map. right; right; left. eauto.
      + intros v H. member H. destruct H as (_ & H). destruct addl as [a|]; [|discriminate]. injection H as <-. apply IAd; auto. split; [auto|].
        intros r Ir. apply R. rewrite !in_app_iff. auto.
    - destruct (R ref) as (n & -> & I); [left; reflexivity|]. eapply va_ref; [|exact I]. members. tauto.
  Qed.
  Lemma content_valid l : tidy_map valid l -> map_of (valid_media names) (JObj (content_json float l)).
  Proof.
    intros (_ & F). eexists. split; [reflexivity|]. intros k x I. apply in_map_iff in I as (ks & E & I). injection E as <- <-.
    rewrite Forall_forall in F. eexists. split; [reflexivity|]. split; [some_key|]. intros v H. member H. destruct H as (_ & <-). now apply F.
  Qed.
  Lemma header_valid h : valid (h_schema h) -> valid_header names (header_json float h).
  Proof.
    intros V. eexists _, (schema_json float (h_schema h)). split; [reflexivity|]. split; [some_key|].
    split; [intros v H; member H; destruct H as (_ & -> & _); eexists; reflexivity|]. split; [|exact V]. members. tauto.
  Qed.
  Lemma response_valid r : tidy_response valid r -> valid_response names (response_json float r).
  Proof.
    intros ((_ & F) & C). eexists. split; [reflexivity|]. split; [some_key|]. split; [eexists; left; reflexivity|]. split.
    - intros v H. member H. destruct H as (_ & -> & _). eexists. split; [reflexivity|]. intros k x I. apply in_map_iff in I as (a & Ea & I). injection Ea as <- <-.
      rewrite Forall_forall in F. apply header_valid. now apply F.
    - intros v H. member H. destruct H as (_ & -> & _). now apply content_valid.
  Qed.
  (** The place, name and style of a parameter. *)
  Definition placed (q : OParam) : Prop :=
    pa_name q <> "" /\ ((pa_in q = "path" /\ pa_required q = true /\ pa_style q = "") \/ (pa_in q = "header" /\ pa_style q = "") \/
                        (pa_in q = "query" /\ (pa_style q = "form" \/ pa_style q = "deepObject"))).
  Definition id_of (q : OParam) : string * string := (pa_name q, pa_in q).
  Lemma parameter_valid q : valid (pa_schema q) -> placed q -> valid_parameter names (parameter_json float q) (id_of q).
  Proof.
    intros V (N & P). eexists _, (schema_json float (pa_schema q)). split; [reflexivity|]. cbn [id_of fst snd]. split; [some_key|].
    split; [members; tauto|]. split; [members; right; left; split; [reflexivity|]; split; [reflexivity|]; destruct P as [(-> & _)|[(-> & _)|(-> & _)]]; discriminate|].
    split; [cbn [In]; destruct P as [(-> & _)|[(-> & _)|(-> & _)]]; auto|].
    split; [intros v H; member H; destruct H as (_ & -> & _); eexists; reflexivity|].
    split. { intros E. destruct P as [(_ & Eq & _)|[(E' & _)|(E' & _)]]; [|congruence|congruence]. members. tauto. }
    split. { intros v H. member H. destruct H as (_ & -> & Ns). eexists. split; [reflexivity|]. unfold style_for. cbn [In].
             destruct P as [(_ & _ & Eq)|[(_ & Eq)|(-> & Eq)]]; [congruence|congruence|]. left. split; auto. intuition. }
    split; [intros v H; member H; destruct H as (_ & -> & _); eexists; reflexivity|]. split; [members; tauto|exact V].
  Qed.
  Lemma operation_valid path op : tidy_operation valid op -> Forall placed (op_parameters op) -> NoDup (map id_of (op_parameters op)) ->
    (forall n, In (n, "path") (map id_of (op_parameters op)) <-> In n (templates path)) -> (forall l, op_requestBody op = Some l -> l <> []) ->
    op_responses op <> [] -> Forall (fun kr => valid_code (fst kr)) (op_responses op) ->
    valid_operation names path (operation_json float op).
  Proof.
    intros (TP & TB & _ & TR) P N T B R C. eexists _, (map (fun kr => (fst kr, response_json float (snd kr))) (op_responses op)), (map id_of (op_parameters op)).
    split; [reflexivity|]. split; [some_key|].
    split; [intros v H; member H; destruct H as (_ & -> & _); eexists; reflexivity|].
    split; [intros v H; member H; destruct H as (_ & -> & _); eexists; reflexivity|].
    split.
    { destruct (op_parameters op) as [|q l] eqn:El.
      - right. split; [|reflexivity]. gone.
      - left. exists (map (parameter_json float) (q :: l)). split; [members; right; right; left; repeat split; discriminate|].
        revert TP P. generalize (q :: l). clear. induction l as [|q l IH]; intros TP P; cbn [map]; [constructor|].
        inversion_clear TP. inversion_clear P. constructor; auto. now apply parameter_valid. }
    split; [exact N|]. split; [exact T|]. split.
    { intros v H. member H. destruct H as (_ & H). destruct (op_requestBody op) as [l|]; [|discriminate]. injection H as <-.
      eexists _, (JObj (content_json float l)). split; [reflexivity|]. split; [some_key|]. split; [|apply content_valid; now apply TB].
      members. repeat split. specialize (B l eq_refl). destruct l; [congruence|discriminate]. }
    split. { members. right; right; right; right. repeat split. destruct (op_responses op); [congruence|discriminate]. }
    split; [destruct (op_responses op); [congruence|discriminate]|].
    intros k x I. apply in_map_iff in I as (kr & E & I). injection E as <- <-. rewrite Forall_forall in C, TR. split; [now apply C|]. apply response_valid. now apply TR.
  Qed.
End Json.

Lemma refs_good names d : tidy_document shaped d -> (forall r, In r (document_refs d) -> linked names r) -> tidy_document (good names) d.
Proof.
  intros (N & F & (M & G)) R. unfold document_refs in R.
  assert (T : forall l, tidy_map shaped l -> (forall r, In r (flat_map (fun s => refs (snd s)) l) -> linked names r) -> tidy_map (good names) l).
  { intros l (A & B) H. split; auto. rewrite Forall_forall in *. intros ks I. split; [now apply B|]. intros r Ir. apply H, in_flat_map. eauto. }
  split; auto. split; [|apply T; [split; auto|intros r Ir; apply R, in_app_iff; auto]].
  rewrite Forall_forall in F. apply Forall_forall. intros kp Ip. apply Forall_forall. intros op Io. assert (X := F _ Ip). unfold tidy_path in X. rewrite Forall_forall in X.
  specialize (X _ Io). destruct X as (A & B & C & D).
  assert (R' : forall r, In r (operation_refs op) -> linked names r).
  { intros r Ir. apply R, in_app_iff. left. apply in_flat_map. exists kp. split; auto. unfold path_refs. unfold operations in Io.
    apply in_flat_map in Io as ([op'|] & I1 & I2); [|destruct I2]. destruct I2 as [->|[]]. apply in_flat_map. exists (Some op). auto. }
  unfold operation_refs in R'. split; [|split; [|split; auto]].
  - rewrite Forall_forall in *. intros q Iq. split; [now apply A|]. intros r Ir. apply R', in_app_iff. left. apply in_flat_map. eauto.
  - intros l El. rewrite El in R'. apply T; [now apply B|]. intros r Ir. apply R'. rewrite !in_app_iff. auto.
  - rewrite Forall_forall in *. intros kr Ir. destruct (D _ Ir) as ((H1 & H2) & H3).
    assert (R'' : forall r, In r (response_refs (snd kr)) -> linked names r).
    { intros r Hr. apply R'. rewrite !in_app_iff. right; right. apply in_flat_map. eauto. }
    unfold response_refs in R''. split; [|apply T; auto; intros r Hr; apply R'', in_app_iff; auto].
    split; auto. rewrite Forall_forall in *. intros kh Ih. split; [now apply H2|]. intros r Hr. apply R'', in_app_iff. left. apply in_flat_map. eauto.
Qed.

(** ** The schemas of a document of sound routes and components are shaped *)
Lemma predefined_types x : x <> "slice" -> forall tf, mlookup x PredefinedTypeMap = Some tf -> In (tf_type tf) schema_types /\ tf_type tf <> "array".
Proof.
  intros N tf E. apply mlookup_In in E. unfold PredefinedTypeMap in E. cbn [In] in E.
  repeat (destruct E as [E|E]; [injection E as <- <-; split; [cbn; tauto|discriminate || congruence]|]). destruct E.
Qed.
Lemma dotted_slice p k : (p ++ "." ++ k)%string <> "slice".
Proof. intros E. apply (f_equal (has_char ".")) in E. revert E. induction p as [|c p IH]; cbn; [discriminate|]. destruct (Ascii.eqb c "."); cbn; auto. discriminate. Qed.
Lemma shaped_plain t f e : In t schema_types -> t <> "array" -> shaped (mkSchema "" t f 0 e [] None [] None "").
Proof. intros. apply shaped_node; auto; try constructor; try discriminate; try lia; contradiction. Qed.
Lemma shaped_predefined x e : complete x -> shaped (set_enum e (mapPredefinedTypeFormat x)).
Proof.
  intros C. unfold mapPredefinedTypeFormat. destruct (mlookup x PredefinedTypeMap) as [tf|] eqn:E; [|apply shaped_plain; cbn; auto; discriminate].
  apply predefined_types in E as (A & B); auto. destruct (String.eqb _ _); apply shaped_plain; cbn; auto. discriminate.
Qed.
Lemma shaped_item x : complete x -> shaped (typeSchema (s_type (mapPredefinedTypeFormat x)) "").
Proof.
  intros C. unfold mapPredefinedTypeFormat. destruct (mlookup x PredefinedTypeMap) as [tf|] eqn:E; [|apply shaped_plain; cbn; auto; discriminate].
  apply predefined_types in E as (A & B); auto. destruct (String.eqb _ _); apply shaped_plain; cbn; auto. discriminate.
Qed.
Lemma shaped_custom custom name pkg : sound_mapping custom -> name <> "slice" -> shaped (mapTypeFormat (typeMapping custom) name pkg).
Proof.
  intros S N. unfold mapTypeFormat. destruct (typeMapping custom name pkg) as [tf|] eqn:E; [|constructor].
  assert (X : In (tf_type tf) schema_types /\ tf_type tf <> "array").
  { unfold typeMapping, GetTypeMapping, maps_copy in E. cbn [fst] in E. rewrite List.app_nil_r in E. set (k := if negb _ then _ else _) in E.
    assert (Nk : k <> "slice") by (unfold k; destruct (negb _); auto using dotted_slice).
    rewrite mlookup_app in E. destruct (mlookup k custom) as [tf'|] eqn:E'; [|now apply (predefined_types k Nk)].
    injection E as ->. apply mlookup_In in E'. eapply S; eauto. }
  destruct X. destruct (String.eqb _ _); [constructor|now apply shaped_plain].
Qed.
Lemma part_inside g f : inside g f -> part_of g f.
Proof. induction 1; [constructor|econstructor; eauto]. Qed.
Lemma sound_top f : sound_type f -> fine_top complete f.
Proof. intros [A B]. split; auto. Qed.
Lemma named_fine l : named_params l -> Forall (fine_param complete) l.
Proof. intros (F & _). eapply Forall_impl; [|exact F]. intros p (B & _ & C). unfold fine_param. now rewrite B. Qed.
Ltac node := apply shaped_node; [unfold schema_types; cbn [In]; tauto|try discriminate|try lia|try now constructor|try discriminate|try now constructor|try now constructor|try discriminate].
Lemma document_shaped o custom config routes components d c names : valid_orders o -> sound_mapping custom ->
  buildDocument o custom config routes components [] = Ok (d, c, names) -> Forall sound_component components -> Forall sound_route routes ->
  tidy_document shaped d.
Proof.
  intros Ho Sm E Sc Sr. eapply document_built with (fine := complete) (long := fun z => (0 <= z)%Z); eauto; try lia; intros; try (now constructor).
  - replace (mapPredefinedTypeFormat x) with (set_enum [] (mapPredefinedTypeFormat x)); [now apply shaped_predefined|].
    unfold mapPredefinedTypeFormat. destruct (mlookup _ _); [destruct (String.eqb _ _)|]; reflexivity.
  - now apply shaped_predefined.
  - now apply shaped_item.
  - node; auto. intros ? [= <-]; auto.
  - node; auto. intros ? [= <-]; auto.
  - destruct H. node; auto.
  - node; auto.
  - destruct H. node; auto.
  - destruct H; unfold set_desc; cbn [s_ref s_type s_format s_maxLength s_enum s_allOf s_items s_props s_addl]; [apply shaped_ref|apply shaped_node; auto].
  - destruct H; split; cbn; auto; constructor.
  - eapply Forall_impl; [|exact Sc]. intros x Sx g Ig. apply part_inside in Ig. destruct (sc_parts x Sx g Ig) as [N1 N2 N3 N4]. split; auto.
    intros _. now apply shaped_custom.
  - eapply Forall_impl; [|exact Sr]. intros r [_ P _ H Q S B R _]. split; auto using named_fine.
    + destruct Q as [Q|(p & -> & Eb & Sp)]; [now apply named_fine|]. constructor; [|constructor]. unfold fine_param. rewrite Eb. now apply sound_top.
    + eapply Forall_impl; [|exact S]. intros p (Eb & C). unfold fine_param. now rewrite Eb.
    + eapply Forall_impl; [|exact B]. intros b. apply sound_top.
    + eapply Forall_impl; [|exact R]. intros b (X & _). now apply sound_top.
Qed.

(** ** Names of components *)
Lemma key_chars_app a b : key_chars (a ++ b) <-> key_chars a /\ key_chars b.
Proof. induction a as [|c a IH]; cbn; [tauto|]. rewrite IH. tauto. Qed.
Lemma key_chars_join l : Forall key_chars l -> key_chars (join "." l).
Proof.
  induction 1 as [|x l Hx Hl IH]; [exact I|]. destruct l as [|y l]; [exact Hx|]. change (join "." (x :: y :: l)) with (x ++ "." ++ join "." (y :: l)).
  rewrite key_chars_app. split; auto. cbn [append key_chars]. split; auto. unfold key_char. tauto.
Qed.
Lemma split_chars s : path_chars s -> Forall key_chars (split "/" s).
Proof.
  induction s as [|c s IH]; intros H; cbn; [repeat constructor|]. destruct H as (Hc & Hs). specialize (IH Hs).
  destruct (Ascii.eqb_spec c "/") as [->|N]; [constructor; auto; exact I|]. destruct Hc as [Hc|Hc]; [|contradiction].
  destruct (split "/" s) as [|h t]; [constructor; [split; [exact Hc|exact I]|constructor]|]. inversion_clear IH. constructor; [|auto]. split; auto.
Qed.
Lemma tag_chars t : In t (NoBindingTag :: BindingTags) -> key_chars t.
Proof. cbn [In BindingTags]. intros H. repeat (destruct H as [<-|H]; [cbn; unfold key_char; cbn; repeat split; lia|]). destruct H. Qed.

Lemma names_valid o components names : valid_orders o -> parsed_components components -> Forall sound_component components ->
  makeCollisionSafeNames o components [] = Ok names -> forall k n, mlookup k names = Some n -> valid_key n.
Proof.
  intros Ho Hp Sc E k n L. rewrite make_names_eq in E. destruct (forallb _ _); [|discriminate]. injection E as <-.
  apply assign_lookup_in in L as [L|L]; [|discriminate]. apply all_entries_in in L as (c & t & Hc & Ht & _ & ->); auto.
  rewrite Forall_forall in Sc. destruct (Sc _ Hc) as [_ _ Kp Kn]. apply registered_tag in Ht; [|apply Hp; auto]. apply tag_chars in Ht.
  unfold name_at. set (sfx := if verdict c then _ else _).
  assert (Ks : key_chars sfx /\ sfx <> "").
  { assert (D : key_char ".") by (unfold key_char; tauto). unfold sfx. destruct (verdict c); split; try discriminate; cbn [append key_chars]; auto.
    split; auto. rewrite key_chars_app. split; auto. cbn [append key_chars]. auto. }
  destruct Ks as (Ks & Ns). split.
  - intros E. apply (f_equal String.length) in E. rewrite length_append in E. cbn in E. destruct sfx; [congruence|cbn in E; lia].
  - rewrite key_chars_app. split; auto. apply key_chars_join. apply split_chars in Kp. rewrite Forall_forall in *. intros x I. apply Kp.
    apply in_rev in I. apply firstn_In in I. unfold elems in I. now apply in_rev.
Qed.
Lemma schemas_named tm o names components (P : string -> Prop) : (forall k n, mlookup k names = Some n -> P n) ->
  Forall (fun ks => P (fst ks)) (addSchemas tm o names components []).
Proof.
  intros H. unfold addSchemas. assert (G : forall l acc, Forall (fun ks => P (fst ks)) acc ->
    Forall (fun ks => P (fst ks)) (fold_left (fun acc c => fold_left (fun acc' bt => addSchema tm o names acc' c bt) BindingTags acc) l acc)); [|apply G; constructor].
  induction l as [|c l IH]; intros acc A; cbn [fold_left]; [auto|]. apply IH. clear IH. revert acc A. generalize BindingTags.
  induction l0 as [|bt ts IH]; intros acc A; cbn [fold_left]; [auto|]. apply IH.
  unfold addSchema. destruct (componentToSchema tm o names bt _ c) as [s|]; [|auto]. cbn zeta.
  destruct (makeComponentRefName names bt (f_name c) (f_package c)) as [n|] eqn:E; auto.
  assert (Pn : P n). { unfold makeComponentRefName in E. destruct (mlookup _ names) eqn:E1; [injection E as ->|]; eauto. }
  rewrite Forall_forall in *. intros ks I. apply minsert_in in I as [->|I]; auto.
Qed.

(** ** Operations *)
Lemma nodup_parts {A B} (f : A -> B) x l m : NoDup l -> NoDup m -> Forall (fun a => f a = x) l -> Forall (fun a => f a <> x) m -> NoDup (l ++ m)%list.
Proof.
  intros N M F G. induction l as [|a l IH]; cbn; [auto|]. inversion_clear N. inversion_clear F as [|? ? Fa Fl]. constructor; auto.
  rewrite in_app_iff. intros [I|I]; [contradiction|]. rewrite Forall_forall in G. apply G in I. congruence.
Qed.
Definition at_place (place : string) (l : list OParam) : Prop := Forall (fun i => snd i = place) (map id_of l).
Lemma ids_entries l : map id_of l = map fst (map entry l).
Proof. rewrite map_map. reflexivity. Qed.
Lemma ids_of place l ps : map entry l = map (entry_of place) ps -> NoDup (map p_name ps) ->
  map id_of l = map (fun p => (p_name p, place)) ps /\ NoDup (map id_of l) /\ at_place place l.
Proof.
  intros E N. assert (X : map id_of l = map (fun p => (p_name p, place)) ps) by (rewrite ids_entries, E, map_map; reflexivity).
  split; auto. unfold at_place. rewrite X. split.
  - clear - N. induction ps as [|p ps IH]; cbn in *; [constructor|]. inversion_clear N as [|? ? N1 N2]. constructor; auto.
    intros I. apply in_map_iff in I as (q & Eq & I). injection Eq as Eq. apply N1. rewrite <- Eq. now apply in_map.
  - apply Forall_map, Forall_forall. auto.
Qed.
Lemma component_props tm o names t site c s : valid_orders o -> componentToSchema tm o names t site c = Some s -> NoDup (map fst (s_props s)).
Proof.
  intros Ho E. rewrite component_to_schema_eq in E.
  assert (P : forall x, NoDup (map fst (s_props (mapPredefinedTypeFormat x)))).
  { intros x. unfold mapPredefinedTypeFormat. destruct (mlookup x _) as [tf|]; [destruct (String.eqb (tf_type tf) "")|]; constructor. }
  destruct (tm (f_name c) (f_package c)) eqn:Et.
  { injection E as <-. unfold mapTypeFormat. destruct (tm _ _) as [tf|]; [destruct (String.eqb (tf_type tf) "")|]; constructor. }
  destruct (String.eqb (f_type c) "struct").
  { destruct (structLoop names t _ [] []) as [(props & emb)|] eqn:El; [|discriminate].
    apply (struct_built names (fun _ => True) (fun _ => I)) in El as ((S & _) & _); [|apply Forall_forall; auto|apply orderly_nil|constructor].
    destruct emb as [|x emb]; [destruct props; injection E as <-; now apply msorted_NoDup|destruct props; injection E as <-; constructor]. }
  destruct (String.eqb (f_type c) "slice"); [injection E as <-; constructor|]. destruct (String.eqb (f_type c) "array"); [injection E as <-; constructor|].
  destruct (String.eqb (f_type c) "map"); [injection E as <-; constructor|]. cbn zeta in E.
  destruct (_ && _); [destruct (makeComponentRef names t (f_type c) (f_package c)); injection E as <-; [constructor|apply P]|injection E as <-; exact (P (f_type c))].
Qed.

Section Operations.
  Context (tm : string -> string -> option TypeFormat) (o : Orders) (names : list (string * string)) (components : list Field).
  Hypothesis Ho : valid_orders o.
  Hypothesis Hp : parsed_components components.
  Hypothesis Hc : Forall sound_component components.
  Lemma named_placed place t l : named_params l -> place = "header" \/ (place = "path" /\ Forall (fun p => p_isRequired p = true) l) ->
    Forall placed (simpleParams names t place l).
  Proof.
    intros (F & _) P. apply Forall_forall. intros q I. apply in_flat_map in I as (p & Ip & I). destruct (mapParamToSchema names t p); [|destruct I].
    destruct I as [<-|[]]. rewrite Forall_forall in F. split; [apply (F p Ip)|]. cbn. destruct P as [->|(-> & R)]; auto. rewrite Forall_forall in R. auto.
  Qed.
  Lemma style_query s : let st := fst (getQueryParamStyle s) in st = "form" \/ st = "deepObject".
  Proof. unfold getQueryParamStyle. destruct (String.eqb _ _); cbn; auto. Qed.
  Lemma query_placed site l : named_params l \/ (exists p, l = [p] /\ p_isBound p = true /\ sound_type (p_field p)) ->
    let qs := queryParams tm o names components site 0 l in Forall placed qs /\ NoDup (map id_of qs) /\ at_place "query" qs.
  Proof.
    intros [N|(p & -> & B & _)] qs.
    - assert (U : Forall unbound l) by (eapply Forall_impl; [|apply (proj1 N)]; intros p H; apply H).
      destruct (ids_of "query" qs l (query_params_exact tm o names components site l U 0) (proj2 N)) as (_ & X & Y). split; auto.
      apply Forall_forall. intros q I. apply query_params_of in I as (p & j & Ip & I). destruct N as (F & _). rewrite Forall_forall in F. destruct (F p Ip) as (B & Nn & _).
      unfold queryParam in I. destruct (mapParamToSchema names FormBindingTag p) as [s|]; [|destruct I]. rewrite B in I.
      assert (St := style_query s). destruct (getQueryParamStyle s). destruct I as [<-|[]]. split; auto.
    - unfold qs. cbn [queryParams]. rewrite List.app_nil_r. unfold queryParam. destruct (mapParamToSchema names FormBindingTag p) as [s|]; [|repeat split; constructor].
      rewrite B. destruct (findComponentByPackageAndType _ _ _) as [c|] eqn:Ec; [|repeat split; constructor].
      destruct (componentToSchema tm o names FormBindingTag _ c) as [cs|] eqn:Es; [|repeat split; constructor].
      set (site' := itoa (Z.of_nat 0) :: site) in *. assert (Pm : Permutation (s_props cs) (o_props o site' (s_props cs))) by apply Ho.
      set (g := fun np : string * Schema => let (style, explode) := getQueryParamStyle (snd np) in mkParameter (fst np) "query" (p_isRequired p) style explode (snd np)).
      assert (G : map id_of (map g (o_props o site' (s_props cs))) = map (fun n => (n, "query")) (map fst (o_props o site' (s_props cs)))).
      { rewrite !map_map. apply map_ext. intros np. unfold g. destruct (getQueryParamStyle (snd np)). reflexivity. }
      apply find_component in Ec as (Ic & _). split; [|split].
      + apply Forall_map, Forall_forall. intros (n & sc) I. unfold g. cbn [fst snd]. assert (St := style_query sc). destruct (getQueryParamStyle sc). split; [|now auto]. cbn.
        assert (Sh := Hc). rewrite Forall_forall in Sh. apply (sc_form c (Sh c Ic)). eapply props_shown; [exact Ho|apply parsed_map_bindings, Hp, Ic|exact Es|].
        eapply Permutation_in; [apply Permutation_sym, Pm|exact I].
      + rewrite G. apply FinFun.Injective_map_NoDup; [intros x y [= ->]; auto|]. eapply Permutation_NoDup; [apply Permutation_map, Pm|]. eapply component_props; eauto.
      + unfold at_place. rewrite G. apply Forall_map, Forall_forall. auto.
  Qed.
  Lemma operation_placed i r : sound_route r -> let op := op_at tm o names components i r in
    Forall placed (op_parameters op) /\ NoDup (map id_of (op_parameters op)) /\
    (forall n, In (n, "path") (map id_of (op_parameters op)) <-> In n (templates (openapi_path (rt_path r)))).
  Proof.
    intros [_ Pa (Te & Re) He Qu _ _ _ _] op. unfold op, op_at, operationOf. cbn [op_parameters].
    set (site := ["route"; itoa (Z.of_nat i)]). destruct (query_placed site (rt_queryParams r) Qu) as (Q1 & Q2 & Q3).
    set (qs := queryParams tm o names components site 0 (rt_queryParams r)) in *.
    assert (U : forall l, named_params l -> Forall unbound l) by (intros l N; eapply Forall_impl; [|apply (proj1 N)]; intros p H; apply H).
    destruct (ids_of "path" _ _ (simple_params_exact names URIBindingTag "path" _ (U _ Pa)) (proj2 Pa)) as (P1 & P2 & P3).
    destruct (ids_of "header" _ _ (simple_params_exact names HeaderBindingTag "header" _ (U _ He)) (proj2 He)) as (H1 & H2 & H3).
    set (ps := simpleParams names URIBindingTag "path" (rt_pathParams r)) in *. set (hs := simpleParams names HeaderBindingTag "header" (rt_reqHeaders r)) in *.
    assert (Pm : Permutation (ps ++ hs ++ qs) (o_sort o site (ps ++ hs ++ qs))) by apply Ho.
    assert (Pi := Permutation_map id_of Pm). split; [|split].
    - eapply Permutation_Forall; [exact Pm|]. rewrite !Forall_app. split; [apply named_placed; auto|]. split; [apply named_placed; auto|auto].
    - eapply Permutation_NoDup; [exact Pi|]. rewrite !map_app. assert (Ne : forall x y l, at_place x l -> x <> y -> Forall (fun i => snd i <> y) (map id_of l)).
      { intros x y l At D. eapply Forall_impl; [|exact At]. intros a. cbn. congruence. }
      apply nodup_parts with (f := snd) (x := "path"); [exact P2| |exact P3|].
      + apply nodup_parts with (f := snd) (x := "header"); auto. apply (Ne "query"); [exact Q3|discriminate].
      + apply Forall_app. split; [apply (Ne "header")|apply (Ne "query")]; auto; discriminate.
    - intros n. rewrite Te. split; intros I.
      + apply (Permutation_in _ (Permutation_sym Pi)) in I. rewrite !map_app, !in_app_iff in I. unfold at_place in *. rewrite Forall_forall in H3, Q3.
        destruct I as [I|[I|I]]; [|apply H3 in I; discriminate|apply Q3 in I; discriminate]. rewrite P1 in I.
        apply in_map_iff in I as (p & E & I). injection E as <-. now apply in_map.
      + apply (Permutation_in _ Pi). rewrite !map_app, !in_app_iff. left. rewrite P1. apply in_map_iff in I as (p & <- & I). now apply (in_map (fun p => (p_name p, "path"))).
  Qed.
  Lemma bodies_some l : forall rb x, (forall y, rb = Some y -> y <> []) -> fold_left (addBody names) l rb = Some x -> x <> [].
  Proof.
    induction l as [|b l IH]; intros rb x R E; cbn in E; [now apply R|]. eapply IH; [|exact E]. intros y. unfold addBody.
    destruct (mapFieldToSchema names _ (b_field b)); [|auto]. intros [= <-]. generalize (match rb with None => [] | Some c => c end).
    intros [|(k & v) m]; cbn; [discriminate|]. destruct (String.eqb _ _); [discriminate|]. destruct (str_ltb _ _); discriminate.
  Qed.
  Lemma operation_sound float schemas path i r : sound_route r -> path = openapi_path (rt_path r) ->
    let op := op_at tm o names components i r in tidy_operation (valid float schemas) op -> valid_operation schemas path (operation_json float op).
  Proof.
    intros S -> op T. destruct (operation_placed i r S) as (P & N & Te). destruct S as [_ _ _ _ _ _ _ Re An].
    assert (K : forall s, In s (map fst (op_responses op)) <-> exists rt, In rt (rt_returns r) /\ s = itoa (r_status rt)).
    { intros s. assert (X := add_responses_keys names (fold_left (addHeader names) (rt_respHeaders r) []) (rt_returns r) [] s). unfold mkeys in X.
      unfold op, op_at, operationOf. cbn [op_responses]. rewrite X. cbn. intuition. }
    apply operation_valid; auto.
    - intros l El. eapply bodies_some; [|exact El]. discriminate.
    - destruct (rt_returns r) as [|t l]; [congruence|]. intros E. rewrite E in K. apply (K (itoa (r_status t))). exists t. cbn. auto.
    - apply Forall_forall. intros kr I. apply (in_map fst) in I. apply K in I as (rt & Ir & ->). rewrite Forall_forall in Re. right. exists (r_status rt). split; auto. apply (Re _ Ir).
  Qed.
End Operations.

(** ** Paths *)
Lemma path_member float item m x : (exists o, path_json float item = JObj o /\ has o m x) ->
  exists M op, slot M item = Some op /\ x = operation_json float op /\ In M openapi_methods /\ m = to_lower M.
Proof.
  intros (o & E & H). unfold path_json in E. injection E as <-. unfold operation_member in H. members.
  repeat match type of H with _ \/ _ => destruct H as [H|H] end; destruct H as (<- & H);
    match type of H with match ?p item with _ => _ end = _ => destruct (p item) as [op|] eqn:E; [|discriminate] end; injection H as <-;
    [exists "GET", op|exists "PUT", op|exists "POST", op|exists "DELETE", op|exists "OPTIONS", op|exists "HEAD", op|exists "PATCH", op|exists "TRACE", op];
    (split; [exact E|]; split; [reflexivity|]; split; [cbn; tauto|reflexivity]).
Qed.
Lemma slot_in M item op : slot M item = Some op -> In op (operations item).
Proof.
  unfold slot, operations. intros H. apply in_flat_map. exists (Some op). split; [|left; reflexivity].
  repeat match type of H with (if ?b then _ else _) = _ => destruct b; [rewrite H; cbn [In]; tauto|] end. discriminate.
Qed.
Lemma obj_has o k x : In (k, x) o -> has o k x.
Proof. auto. Qed.

Section Whole.
  Context (float : string -> string) (o : Orders) (custom : list (string * TypeFormat)) (config : option Config) (routes : list Route) (components : list Field)
          (d : Document) (names : list (string * string)).
  Hypothesis Ho : valid_orders o.
  Hypothesis Hp : parsed_components components.
  Hypothesis Hu : unambiguous components.
  Hypothesis Hn : NoDup (map comp_key components).
  Hypothesis Hcov : forall c, In c components -> covered custom c.
  Hypothesis Hm : sound_mapping custom.
  Hypothesis Hc : Forall sound_component components.
  Hypothesis Hr : sound_routes routes.
  Hypothesis G : generated o custom config routes components [] d names.
  Let schemas : list string := map fst (d_schemas d).
  Lemma all_valid : tidy_document (valid float schemas) d.
  Proof.
    eapply tidy_impl; [apply schema_valid|]. apply refs_good.
    - destruct G as (c & E). eapply document_shaped; eauto. apply Hr.
    - intros r I. apply (all_refs_resolve o custom config routes components d names) in I as (n & s & -> & L); auto.
      exists n. split; auto. apply mlookup_In in L. exact (in_map fst _ _ L).
  Qed.
  Lemma item_valid p item : In (p, item) (d_paths d) -> valid_item schemas p (path_json float item).
  Proof.
    intros I. destruct all_valid as (N & F & _). rewrite Forall_forall in F. assert (T := F _ I). unfold tidy_path in T. rewrite Forall_forall in T. cbn [snd] in T.
    eexists. split; [reflexivity|]. split.
    { apply only_has. intros k v H. unfold operation_member in H. members. repeat match type of H with _ \/ _ => destruct H as [H|H] end; destruct H as (<- & _); cbn; tauto. }
    intros m x H. destruct (path_member float item m x) as (M & op & Es & -> & _); [eexists; split; [reflexivity|exact H]|].
    assert (Oa : operation_at d p M op). { exists item. split; auto. now apply In_mlookup. }
    destruct (operation_at_route _ _ _ _ _ _ _ _ _ _ _ G Oa) as (i & r & L & _ & ->). apply last_route_in in L as (Ir & Ep & _).
    apply operation_sound; auto. assert (Sr := ss_routes _ Hr). rewrite Forall_forall in Sr. now apply Sr. apply T. eapply slot_in; eauto.
  Qed.
  Lemma path_route p : In p (map fst (d_paths d)) <-> exists r, In r routes /\ openapi_path (rt_path r) = p.
  Proof.
    destruct (generated_inv _ _ _ _ _ _ _ _ G) as (c & _ & _ & Ep & _). rewrite Ep.
    assert (H := add_paths_key (typeMapping custom) o names components routes 0 [] p). unfold mkeys in H. rewrite H. cbn. intuition.
  Qed.
  Definition paths_json : obj := map (fun kp => (fst kp, path_json float (snd kp))) (d_paths d).
  Lemma paths_keys : map fst paths_json = map fst (d_paths d).
  Proof. unfold paths_json. now rewrite map_map. Qed.
  Lemma paths_valid : valid_paths schemas paths_json.
  Proof.
    split.
    - intros p x I. apply in_map_iff in I as ((p' & item) & E & I). injection E as <- <-. cbn [fst snd]. split; [|now apply item_valid].
      apply (in_map fst) in I. cbn [fst] in I. apply path_route in I as (r & Ir & <-). assert (Sr := ss_routes _ Hr). rewrite Forall_forall in Sr. apply (Sr _ Ir).
    - intros p p' I I' E. rewrite paths_keys in I, I'. apply path_route in I as (r & Ir & <-). apply path_route in I' as (r' & Ir' & <-). now apply (ss_shapes _ Hr).
  Qed.
  Lemma operation_member_route p m x : operation_in paths_json p m x ->
    exists r, In r routes /\ openapi_path (rt_path r) = p /\ to_lower (rt_method r) = m /\
      forall id, has x "operationId" (JStr id) -> id = rt_operationId r /\ id <> "".
  Proof.
    intros (i & Ip & Im). apply in_map_iff in Ip as ((p' & item) & E & Ip). cbn [fst snd] in E. injection E as <- Ei.
    destruct (path_member float item m (JObj x)) as (M & op & Es & Ex & _ & ->); [exists i; split; [rewrite <- Ei; reflexivity|exact Im]|].
    assert (Oa : operation_at d p' M op). { exists item. split; auto. apply In_mlookup; auto. apply all_valid. }
    destruct (operation_at_route _ _ _ _ _ _ _ _ _ _ _ G Oa) as (j & r & L & _ & ->). apply last_route_in in L as (Ir & Ep & Em).
    exists r. split; auto. split; auto. split; [now rewrite Em|]. intros id H. unfold operation_json in Ex. injection Ex as ->. member H.
    destruct H as (_ & H & Nn). injection H as ->. auto.
  Qed.
  Lemma ids_unique : unique_ids paths_json.
  Proof.
    intros p m x p' m' x' id O O' H H'. apply operation_member_route in O as (r & Ir & <- & <- & K). apply operation_member_route in O' as (r' & Ir' & <- & <- & K').
    destruct (K _ H) as (E & Nn). destruct (K' _ H') as (E' & _). destruct (ss_ids _ Hr r r' Ir Ir') as (A & B); [congruence|congruence|]. now rewrite A, B.
  Qed.
  Lemma document_valid : valid_openapi (document_json float d).
  Proof.
    assert (X : unique_names (document_json float d) /\ (exists u, d_servers d = [String "h" u]) /\ Forall (fun ks => valid_key (fst ks)) (d_schemas d)).
    { clear schemas. destruct G as (c' & E). split; [eapply built_unique; eauto|]. clear G Hr Hcov. unfold buildDocument in E. destruct config as [c|]; [|discriminate].
      destruct (makeCollisionSafeNames o components []) as [ns| | |] eqn:En; try discriminate. cbn [bind] in E. injection E as Ed _ En'. subst ns.
      rewrite <- Ed. cbn [d_servers d_schemas]. split; [destruct (c_secure c); eexists; reflexivity|]. apply schemas_named. eapply names_valid; eauto. }
    destruct X as (Un & (u & Sv) & Nk). destruct all_valid as (_ & _ & (_ & Vs)).
    eexists _, _, paths_json, _, schemas. split; [reflexivity|]. split; [some_key|]. split; [exact Un|]. split; [left; reflexivity|]. split; [right; left; reflexivity|].
    split.
    { eexists _, _, _. split; [reflexivity|]. split; [some_key|]. split; [left; reflexivity|]. split; [members; tauto|].
      split; [intros v H; member H; destruct H as (_ & -> & _); eexists; reflexivity|].
      split.
      - intros v H. member H. destruct H as (_ & <-). eexists. split; [reflexivity|]. split; [some_key|]. intros k x H. members.
        repeat match type of H with _ \/ _ => destruct H as [H|H] end; destruct H as (_ & -> & _); eexists; reflexivity.
      - intros v H. member H. destruct H as (_ & <-). eexists _, _. split; [reflexivity|]. split; [some_key|]. split; [left; reflexivity|].
        intros x H. member H. destruct H as (_ & -> & _). eexists; reflexivity. }
    split.
    { intros v H. member H. destruct H as (_ & -> & Ns). eexists. split; [reflexivity|]. split; auto. rewrite Sv. intros x [<-|[]].
      eexists _, _. split; [reflexivity|]. split; [some_key|]. split; [left; reflexivity|]. intros x H. member H. }
    split; [members; right; right; right; right; left; split; reflexivity|]. split.
    { eexists. split; [reflexivity|]. split; [some_key|]. assert (D : d_schemas d = [] \/ d_schemas d <> []) by (clear; destruct (d_schemas d); [left|right]; congruence). destruct D as [D|D].
      - right. split; [|unfold schemas; now rewrite D]. rewrite D. gone.
      - left. eexists. split; [members; split; [reflexivity|]; split; [reflexivity|intros E; apply map_eq_nil in E; auto]|].
        split; [unfold schemas; now rewrite map_map|].
        intros k x I. apply in_map_iff in I as (ks' & E & I). injection E as <- <-. rewrite Forall_forall in *. split; [now apply Nk|now apply Vs]. }
    split; [|split; [apply paths_valid|apply ids_unique]].
    members. right; right; right; left. split; [reflexivity|]. split; [reflexivity|]. intros E.
    assert (X : exists r, In r routes) by (assert (Ns := ss_some _ Hr); clear - Ns; destruct routes as [|r l]; [congruence|exists r; cbn; auto]). destruct X as (r & Ir).
    assert (X : In (openapi_path (rt_path r)) (map fst paths_json)) by (rewrite paths_keys; apply path_route; eauto). unfold paths_json in X. now rewrite E in X.
  Qed.
End Whole.

(** ** What a valid document is like *)
Section Inverse.
  Context (float : string -> string).
  Lemma text_has k s v o : same k o (text_member k s) -> has o k v -> v = JStr s /\ s <> "".
  Proof. intros S H. apply S in H. apply has_text in H. tauto. Qed.
  Lemma parameter_inv names q id : valid_parameter names (parameter_json float q) id -> id = id_of q /\ pa_name q <> "" /\ valid_schema names (schema_json float (pa_schema q)).
  Proof.
    intros (o & sch & E & _ & N & I & _ & _ & _ & _ & _ & S & V). unfold parameter_json in E. injection E as <-.
    member N. destruct N as (_ & N & Nn). injection N as N. member I. destruct I as (_ & I & _). injection I as I. member S. destruct S as (_ & <-).
    destruct id as (n & i). cbn [fst snd] in *. subst. auto.
  Qed.
  Lemma operation_inv names path op : valid_operation names path (operation_json float op) ->
    op_responses op <> [] /\ Forall (fun q => pa_name q <> "" /\ valid_schema names (schema_json float (pa_schema q))) (op_parameters op) /\
    NoDup (map id_of (op_parameters op)) /\
    (forall n, In (n, "path") (map id_of (op_parameters op)) <-> In n (templates path)) /\
    (forall k r ct s, In (k, r) (op_responses op) -> In (ct, s) (resp_content r) -> valid_schema names (schema_json float s)).
  Proof.
    intros (o & rs & ids & E & _ & _ & _ & P & N & T & _ & R & Rn & Rv). unfold operation_json in E. injection E as <-.
    member R. destruct R as (_ & R & _). injection R as R.
    assert (X : Forall2 (valid_parameter names) (map (parameter_json float) (op_parameters op)) ids).
    { destruct P as [(ps & H & F)|(A & ->)].
      - member H. destruct H as (_ & H & _). injection H as ->. exact F.
      - destruct (op_parameters op) as [|q l] eqn:El; [constructor|]. exfalso. rewrite absent_has in A. apply (A (JArr (map (parameter_json float) (q :: l)))). members. right; right; left. repeat split. discriminate. }
    assert (Y : ids = map id_of (op_parameters op) /\ Forall (fun q => pa_name q <> "" /\ valid_schema names (schema_json float (pa_schema q))) (op_parameters op)).
    { clear - X. revert ids X. induction (op_parameters op) as [|q l IH]; intros ids X; inversion_clear X as [|? id ? ids' A B]; [split; constructor|].
      apply parameter_inv in A as (-> & A). apply IH in B as (-> & B). split; auto. }
    destruct Y as (-> & Y). split; [intros Z; rewrite Z in R; subst rs; auto|]. split; auto. split; auto. split; auto.
    intros k r ct s Ir Ic. subst rs. destruct (Rv k (response_json float r)) as (_ & (o & E & _ & _ & _ & C)).
    { apply in_map_iff. exists (k, r). auto. }
    unfold response_json in E. injection E as <-. specialize (C (JObj (content_json float (resp_content r)))).
    destruct C as (l & E & F).
    { members. right; right. repeat split. destruct (resp_content r); [destruct Ic|discriminate]. }
    injection E as <-. destruct (F ct (media_json float s)) as (m & E & _ & V). { apply in_map_iff. exists (ct, s). auto. }
    injection E as <-. apply V. left. reflexivity.
  Qed.
  Lemma schema_type_inv names o : valid_schema names (JObj o) -> absent o "$ref" ->
    exists t, says_text o "type" t /\ (t = "array" -> exists i, has o "items" i).
  Proof.
    intros V A. remember (JObj o) as v eqn:E. destruct V; injection E as ->; eauto. exfalso. rewrite absent_has in A. eapply A; eauto.
  Qed.
  Lemma array_inv names s : valid_schema names (schema_json float s) -> s_ref s = "" -> s_type s = "array" -> s_items s <> None.
  Proof.
    destruct s as [ref t f ml enum allOf items props addl desc]. cbn [schema_json s_ref s_type s_items]. intros V -> ->.
    change (text_member "$ref" "") with (@nil (string * jval)) in V. cbn [app] in V. apply schema_type_inv in V as (t & T & I); [|gone].
    assert (Et : t = "array"). { destruct T as [T|(A & _)]; [member T; destruct T as (_ & T & _); now injection T|].
        exfalso. rewrite absent_has in A. apply (A (JStr "array")). members. right; right; left. repeat split. discriminate. }
      destruct (I Et) as (i & H). member H. destruct H as (_ & H). destruct items; [discriminate|discriminate H].
  Qed.
  Lemma items_inv names s i : valid_schema names (schema_json float s) -> s_ref s = "" -> s_items s = Some i -> valid_schema names (schema_json float i).
  Proof.
    destruct s as [ref t f ml enum allOf items props addl desc]. cbn [s_ref s_items]. intros V -> ->. cbn [schema_json] in V.
    change (text_member "$ref" "") with (@nil (string * jval)) in V. cbn [app] in V.
    match type of V with valid_schema _ (JObj ?o) => assert (A : absent o "$ref") by gone; assert (H : has o "items" (schema_json float i)); [|remember (JObj o) as v eqn:E] end.
    { members. right; right; right; right; right; left. split; reflexivity. }
    destruct V as [o n R|o ? ? _ _ _ _ _ _ _ _ _ _ _ M]; injection E as ->; [exfalso; rewrite absent_has in A; eapply A; eauto|]. now apply M.
  Qed.
  Lemma document_inv d : valid_openapi (document_json float d) ->
    d_paths d <> [] /\
    (forall p item M op, In (p, item) (d_paths d) -> In M openapi_methods -> slot M item = Some op ->
       valid_operation (map fst (d_schemas d)) p (operation_json float op)) /\
    (forall p p', In p (map fst (d_paths d)) -> In p' (map fst (d_paths d)) -> shape p = shape p' -> p = p') /\
    (forall p item M op p' item' M' op', In (p, item) (d_paths d) -> In M openapi_methods -> slot M item = Some op ->
       In (p', item') (d_paths d) -> In M' openapi_methods -> slot M' item' = Some op' -> op_id op = op_id op' -> op_id op <> "" -> p = p' /\ M = M') /\
    (forall k s, In (k, s) (d_schemas d) -> valid_key k).
  Proof.
    intros (o & i & ps & cs & names & E & _ & _ & _ & _ & _ & _ & C & Vc & P & (V1 & V2) & U). unfold document_json in E. injection E as <-.
    member P. destruct P as (_ & P & Pn). injection P as ->. member C. destruct C as (_ & <-).
    assert (K : names = map fst (d_schemas d) /\ forall k s, In (k, s) (d_schemas d) -> valid_key k).
    { destruct Vc as (o & E & _ & S). injection E as <-. destruct S as [(ss & H & -> & F)|(A & ->)].
      - member H. destruct H as (_ & H & _). injection H as ->. rewrite map_map. split; [reflexivity|]. intros k s I. apply (F k (schema_json float s)).
        apply in_map_iff. exists (k, s). auto.
      - destruct (d_schemas d) as [|ks l]; [split; [reflexivity|intros k s []]|]. exfalso. apply A. left. reflexivity. }
    destruct K as (-> & K).
    assert (Sl : forall item M op, In M openapi_methods -> slot M item = Some op -> exists o, path_json float item = JObj o /\ has o (to_lower M) (operation_json float op)).
    { intros item M op Im Es. eexists. split; [reflexivity|]. unfold operation_member. cbn [In openapi_methods] in Im.
      repeat (destruct Im as [<-|Im]; [cbn in Es; members; cbn; rewrite ?Es; intuition|]). destruct Im. }
    assert (Fp : forall p item, In (p, item) (d_paths d) -> In (p, path_json float item) (map (fun kp => (fst kp, path_json float (snd kp))) (d_paths d))).
    { intros p item I. apply in_map_iff. exists (p, item). auto. }
    split; [intros Z; apply Pn; rewrite Z; reflexivity|]. split; [|split; [|split; [|exact K]]].
    - intros p item M op I Im Es. destruct (Sl _ _ _ Im Es) as (x & Ex & Hx). destruct (V1 p (path_json float item)) as (_ & (x' & Ex' & _ & Vx)); [now apply Fp|].
      rewrite Ex in Ex'. injection Ex' as <-. eapply Vx. exact Hx.
    - rewrite map_map in V2. exact V2.
    - intros p item M op p' item' M' op' I Im Es I' Im' Es' Eid Nid. destruct (Sl _ _ _ Im Es) as (x & Ex & Hx). destruct (Sl _ _ _ Im' Es') as (x' & Ex' & Hx').
      apply Fp in I, I'. rewrite Ex in I. rewrite Ex' in I'. unfold operation_json in Hx, Hx'.
      match type of Hx with has _ _ (JObj ?a) => match type of Hx' with has _ _ (JObj ?b) =>
        destruct (U p (to_lower M) a p' (to_lower M') b (op_id op)) as (A & B) end end.
      + exists x. auto.
      + exists x'. auto.
      + members. right; left. auto.
      + members. right; left. rewrite <- Eid. auto.
      + split; auto. cbn [In openapi_methods] in Im, Im'.
        repeat (destruct Im as [<-|Im]; [repeat (destruct Im' as [<-|Im']; [reflexivity || discriminate B|]); destruct Im'|]). destruct Im.
  Qed.
End Inverse.
