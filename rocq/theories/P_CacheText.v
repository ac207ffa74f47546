(** The bytes of a JSON cache and of an Azure function: well formed, what they say, one reading. *)
From Coq Require Import List String Ascii Bool ZArith Arith Lia Sorted Permutation.
From Verif Require Import BaseStr BaseMap M_Types M_OpenAPI M_Service M_Json M_JsonOut M_CacheText S_Cache S_Json S_JsonOut S_CacheText P_Cache P_Json P_JsonDoc P_JsonRead P_JsonAny P_JsonOut.
Import ListNotations.
Local Open Scope string_scope.

(** ** Text without white space *)
Lemma members_tight f (g : string * jval -> string * jval) l : l <> [] ->
  Forall (fun kv => exists k t, f kv = k ++ ":" ++ t /\ quoted_text k (fst (g kv)) /\ json t (snd (g kv))) l ->
  members (join "," (map f l)) (map g l).
Proof.
  intros N H. induction H as [|kv l (kt & t & E & Hk & Hv) Hl IH]; [now elim N|]. destruct (g kv) as (k & v) eqn:Eg. cbn [fst snd] in *. destruct l as [|v' l].
  - cbn [map join String.concat]. rewrite E, Eg. replace (kt ++ ":" ++ t) with ("" ++ kt ++ "" ++ ":" ++ "" ++ t ++ "") by (cbn; now rewrite append_nil_r). apply me_last; auto; constructor.
  - cbn [map]. rewrite join_cons, E, Eg. rewrite !append_assoc.
    change (kt ++ ":" ++ t ++ "," ++ join "," (f v' :: map f l)) with ("" ++ kt ++ "" ++ ":" ++ "" ++ t ++ "" ++ "," ++ join "," (map f (v' :: l))).
    apply me_next; auto; try constructor. apply IH. discriminate.
Qed.
Lemma compact_repaired short v : numeric v -> json (compact_text short v) (repaired v).
Proof.
  induction v as [|b|t|s|l IH|l IH] using jval_ind'; intros S.
  - constructor.
  - destruct b; constructor.
  - now constructor.
  - apply js_string. apply string_repaired.
  - apply numeric_arr in S. destruct l as [|x l]; [apply (js_empty_array ""); constructor|].
    cbn [compact_text]. apply js_array. fold (map repaired).
    assert (X := elements_map (compact_text short) repaired "" "" (x :: l)). cbn [append] in X. rewrite append_nil_r in X. apply X; try constructor; [discriminate|..];
      rewrite Forall_forall in *; [apply IH; [left; reflexivity|apply S; left; reflexivity]|intros y I; apply IH; [right; auto|apply S; right; auto]].
  - apply numeric_obj in S. destruct l as [|x l]; [apply (js_empty_object ""); constructor|].
    cbn [compact_text]. apply js_object. apply (members_tight _ (fun kv => (json_string (fst kv), repaired (snd kv)))); [discriminate|].
    rewrite Forall_forall in *. intros v I. exists (string_text short (fst v)), (compact_text short (snd v)). split; [reflexivity|].
    split; [apply string_repaired|]. apply IH; auto.
Qed.
Lemma compact_utf8 short v : numeric v -> utf8 (compact_text short v).
Proof.
  induction v as [|b|t|s|l IH|l IH] using jval_ind'; intros S.
  - cbn; latin.
  - destruct b; cbn; latin.
  - now apply number_utf8.
  - apply string_repaired.
  - apply numeric_arr in S. cbn [compact_text]. apply utf8_app; [latin|]. apply utf8_app; [|latin]. apply join_utf8; [latin|]. apply Forall_map. rewrite Forall_forall in *. auto.
  - apply numeric_obj in S. cbn [compact_text]. apply utf8_app; [latin|]. apply utf8_app; [|latin]. apply join_utf8; [latin|]. apply Forall_map. rewrite Forall_forall in *.
    intros v I. apply utf8_app; [apply string_repaired|]. apply utf8_app; [latin|]. auto.
Qed.

(** ** Repaired members *)
Definition rep (kv : string * jval) : string * jval := (json_string (fst kv), repaired (snd kv)).
Lemma repaired_obj l : repaired (JObj l) = JObj (map rep l).
Proof. reflexivity. Qed.
Lemma json_string_empty s : json_string s = "" -> s = "".
Proof.
  destruct s as [|c r]; auto. rewrite json_cons. cbv zeta.
  repeat match goal with |- context [if ?b then _ else _] => destruct b | |- context [match ?r with EmptyString => _ | String _ _ => _ end] => destruct r end; discriminate.
Qed.
Lemma rep_text k s : map rep (text_member k s) = text_member (json_string k) (json_string s).
Proof.
  unfold text_member. destruct (String.eqb_spec s "") as [->|N]; [reflexivity|]. destruct (String.eqb_spec (json_string s) "") as [E|_]; [now apply json_string_empty in E|reflexivity].
Qed.
Lemma rep_flag k b : map rep (flag_member k b) = flag_member (json_string k) b.
Proof. destruct b; reflexivity. Qed.
Lemma rep_int k z : map rep (int_member k z) = int_member (json_string k) z.
Proof. unfold int_member. destruct (Z.eqb z 0); reflexivity. Qed.
Lemma rep_list k l : map rep (list_member k l) = list_member (json_string k) (map repaired l).
Proof. destruct l; reflexivity. Qed.
Lemma rep_map k l : map rep (map_member k l) = map_member (json_string k) (map rep l).
Proof. destruct l; reflexivity. Qed.
Lemma rep_cons k v l : map rep ((k, v) :: l) = (json_string k, repaired v) :: map rep l.
Proof. reflexivity. Qed.
Ltac reps := rewrite ?repaired_obj; repeat first [rewrite map_app | rewrite rep_text | rewrite rep_flag | rewrite rep_int | rewrite rep_list | rewrite rep_map | rewrite rep_cons];
  repeat match goal with |- context [json_string (String ?a ?b)] => let x := eval vm_compute in (json_string (String a b)) in change (json_string (String a b)) with x end.
Lemma list_self2 {A B} (R : jval -> B -> Prop) k (g : A -> jval) (h : A -> B) l : Forall (fun a => R (repaired (g a)) (h a)) l ->
  says_list R (list_member k (map repaired (map g l))) k (map h l).
Proof.
  intros H. destruct l as [|a l]; [right; split; auto using absent_nil|left]. exists (map repaired (map g (a :: l))). split; [left; reflexivity|].
  induction H; cbn; constructor; auto.
Qed.
Lemma table_pairs {A B} (R : jval -> B -> Prop) (g : string * A -> jval) (h : A -> B) (l : list (string * A)) :
  Forall (fun ka => R (repaired (g ka)) (h (snd ka))) l ->
  exists l', Permutation (map (fun ka => (json_string (fst ka), h (snd ka))) l) l' /\
    Forall2 (keyed R) (map rep (sort_keys (map (fun ka => (fst ka, g ka)) l))) l'.
Proof.
  intros F. assert (P := sort_perm (map (fun ka => (fst ka, g ka)) l)).
  assert (T : Forall2 (keyed R) (map rep (map (fun ka => (fst ka, g ka)) l)) (map (fun ka => (json_string (fst ka), h (snd ka))) l)).
  { clear P. induction F; cbn; constructor; auto. split; auto. }
  assert (Q := Permutation_map rep (Permutation_sym P)). destruct (Permutation_Forall2 Q T) as (l' & P' & T'). exists l'. auto.
Qed.
Lemma sort_nil {A} (l : list (string * A)) : sort_keys l = [] -> l = [].
Proof. intros E. assert (P := sort_perm l). rewrite E in P. now apply Permutation_nil in P. Qed.
Lemma entries_self2 {A B} (R : jval -> B -> Prop) k (g : string * A -> jval) (h : A -> B) (l : list (string * A)) :
  Forall (fun ka => R (repaired (g ka)) (h (snd ka))) l ->
  says_entries R (map_member k (map rep (sort_keys (map (fun ka => (fst ka, g ka)) l)))) k (map (fun ka => (json_string (fst ka), h (snd ka))) l).
Proof.
  intros F. destruct (table_pairs R g h l F) as (l' & P & T). destruct (sort_keys (map (fun ka => (fst ka, g ka)) l)) as [|x r] eqn:E.
  - apply sort_nil in E. destruct l; [|discriminate]. right. split; auto using absent_nil.
  - left. exists (map rep (x :: r)), l'. split; [left; reflexivity|auto].
Qed.
Ltac said3 := lazymatch goal with
  | |- says_entries _ _ _ _ => eapply entries_ext; [find_member|apply entries_self2]
  | |- says_list _ _ _ _ => eapply list_ext; [find_member|apply list_self2]
  | |- _ => said end.

Section Value.
  Context (float : string -> string).
  Notation E := (any_value float).
  Lemma enums_said3 l : Forall (fun e => E (repaired (enum_json float e)) (json_enum e)) l.
  Proof. apply Forall_forall. intros [x|z|b|x] _; cbn; auto. left. exists (itoa z), z. split; [reflexivity|]. split; [apply itoa_integer|reflexivity]. Qed.
  Lemma tag_said3 t : tag_value (repaired (tag_json t)) (mkBT (json_string (bt_name t)) (bt_notShown t) (bt_returnOptional t)).
  Proof. unfold tag_json. reps. eexists. split; [reflexivity|]. cbn [bt_name bt_notShown bt_returnOptional]. repeat split; said3. Qed.
  Lemma validation_said3 b : validation_value (repaired (validation_json b)) b.
  Proof. unfold validation_json. reps. eexists. split; [reflexivity|]. said3. Qed.
  Lemma field_said3 f : field_value E (repaired (field_json float f)) (json_field f).
  Proof.
    induction f as [f IH] using Field_ind'. destruct f as [pkg typ name enum req emb sliceT arrayT arrayL mkp mkt mv sf bt vt doc].
    cbn [f_structFields] in IH. cbn [field_json json_field]. reps. constructor; cbn [f_package f_type f_name f_enum f_isRequired f_isEmbedded f_sliceType f_arrayType f_arrayLength
      f_mapKeyPackage f_mapKeyType f_mapValueType f_structFields f_bindingTags f_validationTags f_doc]; try said3; auto using enums_said3.
    - eapply entries_ext; [find_member|]. refine (entries_self2 _ _ (fun kt => tag_json (snd kt)) (fun t => mkBT (json_string (bt_name t)) (bt_notShown t) (bt_returnOptional t)) bt _).
      apply Forall_forall. intros x _. apply tag_said3.
    - eapply entries_ext; [find_member|]. refine (entries_self2 _ _ (fun kt => validation_json (snd kt)) (fun t => t) vt _).
      apply Forall_forall. intros x _. apply validation_said3.
  Qed.
  Lemma param_said3 p : param_value E (repaired (param_json float p)) (json_param p).
  Proof. unfold param_json. reps. eexists _, (repaired (field_json float (p_field p))). split; [reflexivity|]. cbn [json_param p_name p_field p_isRequired p_isArray p_isMap p_isBound].
    repeat split; try said3. apply field_said3. Qed.
  Lemma bodyParam_said3 p : bodyParam_value E (repaired (bodyParam_json float p)) (json_body p).
  Proof. unfold bodyParam_json. reps. eexists _, (repaired (field_json float (b_field p))). split; [reflexivity|]. cbn [json_body b_name b_field b_contentType b_isRequired b_isArray b_isMap b_isBound].
    repeat split; try said3. apply field_said3. Qed.
  Lemma returnType_said3 p : returnType_value E (repaired (returnType_json float p)) (json_return p).
  Proof. unfold returnType_json. reps. eexists _, (repaired (field_json float (r_field p))). split; [reflexivity|]. cbn [json_return r_status r_contentType r_field].
    repeat split; try said3. apply field_said3. Qed.
  Lemma route_said3 r : route_value E (repaired (route_json float r)) (json_route r).
  Proof.
    unfold route_json. reps. cbn [repaired]. eexists _, (itoa (rt_line r)). split; [reflexivity|].
    cbn [json_route rt_handler rt_file rt_line rt_method rt_path rt_pathParams rt_queryParams rt_body rt_returns rt_doc rt_operationId rt_reqHeaders rt_respHeaders].
    repeat split; try said3; try apply itoa_integer;
      apply Forall_forall; intros x _; (apply param_said3 || apply bodyParam_said3 || apply returnType_said3).
  Qed.
  Lemma slice_said3 {A B} (R : jval -> B -> Prop) (o : obj) k n (g : A -> jval) (h : A -> B) l : (forall a, R (repaired (g a)) (h a)) ->
    has o k (repaired (slice_json n (map g l))) -> says_slice R o k (map h l).
  Proof.
    intros H I. destruct l as [|x l].
    - cbn in I. destruct n; [right; auto|left; exists []; split; [exact I|constructor]].
    - left. exists (map repaired (map g (x :: l))). split; [exact I|]. clear I. induction (x :: l); cbn; constructor; auto.
  Qed.
  Lemma table_said3 {A B} (R : jval -> B -> Prop) (o : obj) k n (g : string * A -> jval) (h : A -> B) (l : list (string * A)) : Forall (fun ka => R (repaired (g ka)) (h (snd ka))) l ->
    has o k (repaired (table_json n (map (fun ka => (fst ka, g ka)) l))) -> says_table R o k (map (fun ka => (json_string (fst ka), h (snd ka))) l).
  Proof.
    intros H I. destruct (table_pairs R g h l H) as (l' & P & T). destruct l as [|x l].
    - cbn in I. destruct n; [right; auto|left; exists [], []; split; [exact I|split; constructor]].
    - left. eexists _, l'. split; [exact I|]. auto.
  Qed.
  Context (nil : string -> bool) (other : string -> jval) (Ho : forall k s, other k <> JStr s).
  Lemma cfg_said3 (l : list (string * cfgval)) : Forall (fun ka => cfg_value (repaired (snd (cfg_json other ka))) (json_cfgval (snd ka))) l.
  Proof.
    apply Forall_forall. intros (k & [s|]) _; cbn; [reflexivity|]. intros s E. specialize (Ho k). destruct (other k); try discriminate. now elim (Ho s0).
  Qed.
  Lemma outputEntry_said3 o : outputEntry_value (repaired (outputEntry_json nil other o)) (json_string (out_mode o), map (fun kv => (json_string (fst kv), json_cfgval (snd kv))) (out_config o)).
  Proof.
    unfold outputEntry_json. reps. eexists. split; [reflexivity|]. cbn [fst snd]. split; [left; reflexivity|].
    refine (table_said3 cfg_value _ _ (nil "configuration") (fun kv => snd (cfg_json other kv)) json_cfgval (out_config o) (cfg_said3 _) _).
    right. left. reflexivity.
  Qed.
  Lemma config_said3 c : config_value (repaired (config_json c)) (json_config c).
  Proof.
    destruct c as [ti de ve ((cn & cu) & ce) (ln & lu) se ho ba po]. unfold config_json, json_config.
    cbn [c_title c_description c_version c_contact c_license c_secure c_host c_basePath c_port fst snd]. reps. cbn [map]. rewrite !repaired_obj. reps. cbn [map].
    cbn [repaired]. eexists _, _, _, (itoa po). split; [reflexivity|]. cbn [c_title c_description c_version c_contact c_license c_secure c_host c_basePath c_port fst snd]. unfold says, has.
    split; [left; reflexivity|]. split; [do 1 right; left; reflexivity|]. split; [do 2 right; left; reflexivity|]. split; [do 3 right; left; reflexivity|].
    split; [left; reflexivity|]. split; [do 1 right; left; reflexivity|]. split; [do 2 right; left; reflexivity|]. split; [do 4 right; left; reflexivity|].
    split; [left; reflexivity|]. split; [do 1 right; left; reflexivity|]. split; [do 5 right; left; reflexivity|]. split; [do 6 right; left; reflexivity|].
    split; [do 7 right; left; reflexivity|]. split; [do 8 right; left; reflexivity|apply itoa_integer].
  Qed.
  Lemma service_said3 s : cached_value float (repaired (service_json float nil other s)) (json_service s).
  Proof.
    unfold service_json. reps. eexists. split; [reflexivity|]. unfold json_service. cbn [ca_inputs ca_outputs ca_config ca_routes ca_components ca_customTypes].
    split; [|split; [|split; [|split; [|split]]]].
    - apply (slice_said3 _ _ _ (nil "inputs") input_json); [|left; reflexivity]. intros a. eexists. split; [reflexivity|left; reflexivity].
    - apply (slice_said3 _ _ _ (nil "outputs") (outputEntry_json nil other)); [intros a; apply outputEntry_said3|right; left; reflexivity].
    - destruct (sv_config s) as [c|]; [left|right].
      + eexists _, (json_config c). split; [right; right; left; reflexivity|]. split; [reflexivity|apply config_said3].
      + split; [right; right; left; reflexivity|reflexivity].
    - apply (slice_said3 _ _ _ (nil "routes") (route_json float)); [intros a; apply route_said3|do 3 right; left; reflexivity].
    - apply (slice_said3 _ _ _ (nil "components") (field_json float)); [intros a; apply field_said3|do 4 right; left; reflexivity].
    - refine (table_said3 typeFormat_value _ _ (nil "custom_type_mapping") (fun kt => typeFormat_json (snd kt)) (fun t => mkTF (json_string (tf_type t)) (json_string (tf_format t))) (sv_customTypes s) _ _).
      + apply Forall_forall. intros x _. eexists. split; [reflexivity|]. split; [left; reflexivity|right; left; reflexivity].
      + do 5 right. left. reflexivity.
  Qed.
End Value.

(** ** Numbers *)
Section Numeric.
  Context (float : string -> string) (Hf : forall t, number (float t)) (nil : string -> bool) (other : string -> jval) (Ho : forall k, numeric (other k)).
  Lemma table_numeric n l : numerics l -> numeric (table_json n l).
  Proof.
    intros H. unfold table_json. destruct l as [|x l]; [destruct n; exact I|]. apply numeric_obj. unfold numerics in H. rewrite Forall_forall in *. intros y J. apply H.
    eapply Permutation_in; [apply sort_perm|exact J].
  Qed.
  Lemma service_numeric s : numeric (service_json float nil other s).
  Proof.
    apply numeric_obj. fold numerics. num; try (apply slice_numeric, Forall_map, Forall_forall; intros x _; auto using route_numeric, field_numeric).
    - apply numeric_obj. fold numerics. num. exact I.
    - apply numeric_obj. fold numerics. num; [exact I|]. apply table_numeric, Forall_map, Forall_forall. intros (k & [v|]) _; cbn; auto.
    - destruct (sv_config s); [|exact I]. apply numeric_obj. fold numerics. num; try exact I; try apply itoa_number; cbn; tauto.
    - apply table_numeric, Forall_map, Forall_forall. intros x _. cbn. tauto.
  Qed.
End Numeric.

(** ** Unique names *)
Lemma rep_keyed {A} (g : string * A -> jval) (l : list (string * A)) : keys_once l -> Forall (fun ka => unique_names (repaired (g ka))) l ->
  distinct (map rep (sort_keys (map (fun ka => (fst ka, g ka)) l))).
Proof.
  intros N F. assert (P := Permutation_map rep (Permutation_sym (sort_perm (map (fun ka => (fst ka, g ka)) l)))). split.
  - eapply Permutation_NoDup; [apply Permutation_map; exact P|]. rewrite !map_map. exact N.
  - apply (Permutation_Forall P). rewrite !Forall_map. exact F.
Qed.
Section Unique.
  Context (float : string -> string).
  Lemma tag_unique3 t : unique_names (repaired (tag_json t)).
  Proof. unfold tag_json. reps. apply unique_obj. apart. apply distinct_end. apart. apply distinct_nil. Qed.
  Lemma validation_unique3 t : unique_names (repaired (validation_json t)).
  Proof. unfold validation_json. reps. apply unique_obj. apply distinct_end. apart. apply distinct_nil. Qed.
  Lemma field_unique3 f : every text_once f -> unique_names (repaired (field_json float f)).
  Proof.
    induction f as [f IH] using Field_ind'. rewrite every_inv. destruct f as [pkg typ name enum req emb sliceT arrayT arrayL mkp mkt mv sf bt vt doc].
    unfold text_once. cbn [field_json f_structFields f_bindingTags f_validationTags] in *. intros ((N1 & N2 & N3) & F). reps. apply unique_obj. apart.
    apply distinct_list; [do 2 apply Forall_map; apply Forall_forall; intros [x|x|x|x] _; exact Logic.I|gone|]. apart.
    apply distinct_map; [apply (rep_keyed (fun kf => field_json float (snd kf))); auto|gone|].
    { rewrite Forall_forall in *. auto. }
    apply distinct_map; [apply (rep_keyed (fun kf => tag_json (snd kf))); auto; apply Forall_forall; intros; apply tag_unique3|gone|].
    apply distinct_map; [apply (rep_keyed (fun kf => validation_json (snd kf))); auto; apply Forall_forall; intros; apply validation_unique3|gone|].
    apply distinct_end. apart. apply distinct_nil.
  Qed.
  Lemma param_unique3 p : every text_once (p_field p) -> unique_names (repaired (param_json float p)).
  Proof. intros H. unfold param_json. reps. apply unique_obj. apart. apply distinct_cons; [now apply field_unique3|gone|]. apart. apply distinct_end. apart. apply distinct_nil. Qed.
  Lemma bodyParam_unique3 p : every text_once (b_field p) -> unique_names (repaired (bodyParam_json float p)).
  Proof. intros H. unfold bodyParam_json. reps. apply unique_obj. apart. apply distinct_cons; [now apply field_unique3|gone|]. apart. apply distinct_end. apart. apply distinct_nil. Qed.
  Lemma returnType_unique3 p : every text_once (r_field p) -> unique_names (repaired (returnType_json float p)).
  Proof. intros H. unfold returnType_json. reps. apply unique_obj. apart. apply distinct_cons; [now apply field_unique3|gone|apply distinct_nil]. Qed.
  Lemma route_unique3 r : Forall (every text_once) (route_fields r) -> unique_names (repaired (route_json float r)).
  Proof.
    rewrite route_every. intros (H1 & H2 & H3 & H4 & H5 & H6). unfold route_json. reps. apply unique_obj.
    repeat (apply distinct_cons; [exact I|gone|]).
    assert (X : forall l, Forall (fun p => every text_once (p_field p)) l -> Forall unique_names (map repaired (map (param_json float) l))).
    { intros l F. do 2 apply Forall_map. eapply Forall_impl; [|exact F]. intros p. apply param_unique3. }
    apply distinct_list; [auto|gone|]. apply distinct_list; [auto|gone|].
    apply distinct_list; [do 2 apply Forall_map; eapply Forall_impl; [|exact H3]; intros p; apply bodyParam_unique3|gone|].
    apply distinct_list; [do 2 apply Forall_map; eapply Forall_impl; [|exact H4]; intros p; apply returnType_unique3|gone|]. apart.
    apply distinct_list; [auto|gone|]. apply distinct_end, distinct_list; [auto|gone|apply distinct_nil].
  Qed.
  Lemma slice_unique3 n l : Forall (fun v => unique_names (repaired v)) l -> unique_names (repaired (slice_json n l)).
  Proof. intros H. destruct l; [destruct n; exact I|]. cbn [slice_json repaired]. apply unique_arr. now apply Forall_map. Qed.
  Lemma table_unique3 {A} n (g : string * A -> jval) (l : list (string * A)) : keys_once l -> Forall (fun ka => unique_names (repaired (g ka))) l ->
    unique_names (repaired (table_json n (map (fun ka => (fst ka, g ka)) l))).
  Proof. intros N H. assert (D := rep_keyed g l N H). destruct l; [destruct n; [exact I|split; constructor]|]. apply unique_obj. exact D. Qed.
  Context (nil : string -> bool) (other : string -> jval) (Ho : forall k, unique_names (repaired (other k))).
  Lemma service_unique3 s : Forall text_once (output_fields (sv_routes s) (sv_components s)) -> Forall (fun o => keys_once (out_config o)) (sv_outputs s) -> keys_once (sv_customTypes s) ->
    unique_names (repaired (service_json float nil other s)).
  Proof.
    rewrite output_every. intros (R & C) O T. unfold service_json. reps. apply unique_obj.
    apply distinct_cons; [|gone|apply distinct_cons; [|gone|apply distinct_cons; [|gone|apply distinct_cons; [|gone|apply distinct_cons; [|gone|apply distinct_cons; [|gone|apply distinct_nil]]]]]].
    - apply slice_unique3, Forall_map, Forall_forall. intros x _. apply unique_obj. apply distinct_cons; [exact I|gone|apply distinct_nil].
    - apply slice_unique3, Forall_map. eapply Forall_impl; [|exact O]. intros o K. unfold outputEntry_json. reps. apply unique_obj.
      apply distinct_cons; [exact I|gone|apply distinct_cons; [|gone|apply distinct_nil]].
      apply (table_unique3 _ (fun kv => snd (cfg_json other kv))); auto. apply Forall_forall. intros (k & [v|]) _; cbn; auto.
    - destruct (sv_config s); [|exact I]. unfold config_json. reps. apply unique_obj.
      repeat (apply distinct_cons; [try exact I|gone|]); try apply distinct_nil; reps; apply unique_obj; repeat (apply distinct_cons; [exact I|gone|]); apply distinct_nil.
    - apply slice_unique3, Forall_map. eapply Forall_impl; [|exact R]. intros r. apply route_unique3.
    - apply slice_unique3, Forall_map. eapply Forall_impl; [|exact C]. intros r. apply field_unique3.
    - apply (table_unique3 _ (fun kt => typeFormat_json (snd kt))); auto. apply Forall_forall. intros x _. unfold typeFormat_json. reps. apply unique_obj.
      repeat (apply distinct_cons; [exact I|gone|]). apply distinct_nil.
  Qed.
End Unique.

(** ** One reading *)
Section One.
  Context (float : string -> string).
  Lemma any_one v e e' : (forall t, e <> EFloat t) -> (forall t, e' <> EFloat t) -> any_value float v e -> any_value float v e' -> e = e'.
  Proof. intros N N'. destruct e, e'; cbn; intros H H'; subst; try easy; try congruence; (now elim (N v0) || now elim (N s) || now elim (N' s) || now elim (N' s0)). Qed.
  Lemma table_perm {A} (R : jval -> A -> Prop) o k l l' : uniq_obj o -> (forall v a a', unique_names v -> R v a -> R v a' -> a = a') ->
    says_table R o k l -> says_table R o k l' -> Permutation l l'.
  Proof.
    intros U O [(vs & p & H & P & F)|(H & ->)] [(vs' & p' & H' & P' & F')|(H' & ->)]; auto; try (assert (Eo := has_unique _ _ _ _ (proj1 U) H H'); discriminate).
    apply (entries_perm R o k l l' U O); left; eauto.
  Qed.
  Lemma cfg_one v c c' : unique_names v -> cfg_value v c -> cfg_value v c' -> c = c'.
  Proof. intros _. destruct c, c'; cbn; intros H H'; subst; auto; try congruence; now elim (H' s) || now elim (H s). Qed.
  Lemma typeFormat_one v t t' : unique_names v -> typeFormat_value v t -> typeFormat_value v t' -> t = t'.
  Proof.
    intros U (o & -> & A1 & A2) (o' & Eo & B1 & B2). injection Eo as <-. apply unique_obj in U. fold (uniq_obj o) in U. destruct t, t'; cbn in *.
    assert (Q1 := str_one _ _ _ _ U A1 B1). assert (Q2 := str_one _ _ _ _ U A2 B2). subst. reflexivity.
  Qed.
  Lemma config_one v c c' : unique_names v -> config_value v c -> config_value v c' -> c = c'.
  Proof.
    intros U (o & ct & li & t & -> & A1 & A2 & A3 & A4 & A5 & A6 & A7 & A8 & A9 & A10 & A11 & A12 & A13 & A14 & A15)
      (o' & ct' & li' & t' & Eo & B1 & B2 & B3 & B4 & B5 & B6 & B7 & B8 & B9 & B10 & B11 & B12 & B13 & B14 & B15). injection Eo as <-.
    apply unique_obj in U. fold (uniq_obj o) in U. assert (E1 := has_unique _ _ _ _ (proj1 U) A4 B4). injection E1 as <-.
    assert (E2 := has_unique _ _ _ _ (proj1 U) A8 B8). injection E2 as <-. assert (E3 := has_unique _ _ _ _ (proj1 U) A11 B11). assert (E4 := has_unique _ _ _ _ (proj1 U) A14 B14). injection E4 as <-.
    assert (Uc := has_names _ _ _ U A4). apply unique_obj in Uc. fold (uniq_obj ct) in Uc. assert (Ul := has_names _ _ _ U A8). apply unique_obj in Ul. fold (uniq_obj li) in Ul.
    assert (Q1 := str_one _ _ _ _ U A1 B1). assert (Q2 := str_one _ _ _ _ U A2 B2). assert (Q3 := str_one _ _ _ _ U A3 B3).
    assert (Q5 := str_one _ _ _ _ Uc A5 B5). assert (Q6 := str_one _ _ _ _ Uc A6 B6). assert (Q7 := str_one _ _ _ _ Uc A7 B7).
    assert (Q9 := str_one _ _ _ _ Ul A9 B9). assert (Q10 := str_one _ _ _ _ Ul A10 B10). assert (Q12 := str_one _ _ _ _ U A12 B12). assert (Q13 := str_one _ _ _ _ U A13 B13).
    assert (Q15 := integer_one _ _ _ A15 B15). injection E3 as E3.
    destruct c as [ti de ve ((cn & cu) & ce) (ln & lu) se ho ba po], c' as [ti' de' ve' ((cn' & cu') & ce') (ln' & lu') se' ho' ba' po']. cbn in *. subst. reflexivity.
  Qed.
  Lemma cached_one v c c' : unique_names v -> Forall no_floats (output_fields (ca_routes c) (ca_components c)) -> Forall no_floats (output_fields (ca_routes c') (ca_components c')) ->
    cached_value float v c -> cached_value float v c' -> same_data c c'.
  Proof.
    rewrite !output_every. intros U (F1 & F2) (G1 & G2) (o & -> & A1 & A2 & A3 & A4 & A5 & A6) (o' & Eo & B1 & B2 & B3 & B4 & B5 & B6). injection Eo as <-.
    apply unique_obj in U. fold (uniq_obj o) in U. rewrite Forall_forall in F1, F2, G1, G2.
    split; [|split; [|split; [|split; [|split]]]].
    - assert (X : Forall2 eq (ca_inputs c) (ca_inputs c')).
      { refine (slice_same _ _ o _ _ _ U _ A1 B1). intros w a a' Uw _ _ (p & -> & P1) (p' & Ep & P2). injection Ep as <-. apply unique_obj in Uw. fold (uniq_obj p) in Uw. exact (str_one _ _ _ _ Uw P1 P2). }
      clear - X. induction X; congruence.
    - refine (slice_same _ _ o _ _ _ U _ A2 B2). intros w a a' Uw _ _ (p & -> & P1 & P2) (p' & Ep & Q1 & Q2). injection Ep as <-. apply unique_obj in Uw. fold (uniq_obj p) in Uw.
      split; [exact (str_one _ _ _ _ Uw P1 Q1)|exact (table_perm _ _ _ _ _ Uw cfg_one P2 Q2)].
    - destruct A3 as [(w & x & H & E1 & X)|(H & E1)], B3 as [(w' & x' & H' & E1' & X')|(H' & E1')]; assert (Ew := has_unique _ _ _ _ (proj1 U) H H').
      + subst w'. rewrite E1, E1'. f_equal. exact (config_one _ _ _ (has_names _ _ _ U H) X X').
      + subst w. destruct X as (? & ? & ? & ? & ? & _). discriminate.
      + subst w'. destruct X' as (? & ? & ? & ? & ? & _). discriminate.
      + now rewrite E1, E1'.
    - refine (slice_same _ _ o _ _ _ U _ A4 B4). intros w e e' Uw J J'. apply (route_one _ any_one); auto; rewrite Forall_forall; auto.
    - refine (slice_same _ _ o _ _ _ U _ A5 B5). intros w e e' Uw J J'. apply (field_one _ any_one); auto.
    - exact (table_perm _ _ _ _ _ U typeFormat_one A6 B6).
  Qed.
End One.

(** ** Azure functions *)
Lemma function_numeric ms r : numeric (function_json ms r).
Proof.
  cbn [function_json numeric fold_right snd]. repeat split; try (apply numeric_obj; fold numerics; num; try exact I; apply Forall_forall; intros; exact I).
Qed.
Lemma binding_said t d n ms r : binding_value (repaired (binding_json t d n ms r)) (json_string t) (json_string d) (json_string n) (map json_string ms) (json_string r).
Proof.
  unfold binding_json. reps. eexists. split; [reflexivity|]. cbn [repaired app].
  split; [left; reflexivity|]. split; [right; left; reflexivity|]. split; [right; right; left; reflexivity|]. split.
  - said3. apply Forall_forall. intros x _. reflexivity.
  - said.
Qed.
Lemma function_said ms r : function_value (repaired (function_json ms r)) (map json_string ms) (json_string r).
Proof.
  unfold function_json. reps. exists [("bindings", JArr [repaired (binding_json "httpTrigger" "in" "req" ms r); repaired (binding_json "http" "out" "res" [] "")])],
    (repaired (binding_json "httpTrigger" "in" "req" ms r)), (repaired (binding_json "http" "out" "res" [] "")).
  split; [reflexivity|]. split; [left; reflexivity|]. split; [exact (binding_said "httpTrigger" "in" "req" ms r)|exact (binding_said "http" "out" "res" [] "")].
Qed.
Lemma function_unique ms r : unique_names (repaired (function_json ms r)).
Proof.
  assert (B : forall t d n l x, unique_names (repaired (binding_json t d n l x))).
  { intros. unfold binding_json. reps. apply unique_obj. cbn [app]. repeat (apply distinct_cons; [exact I|gone|]).
    apply distinct_list; [do 2 apply Forall_map; apply Forall_forall; intros; exact I|gone|]. apply distinct_end. apart. apply distinct_nil. }
  unfold function_json. reps. apply unique_obj. apply distinct_cons; [|gone|apply distinct_nil]. 
  change (unique_names (JArr [repaired (binding_json "httpTrigger" "in" "req" ms r); repaired (binding_json "http" "out" "res" [] "")])).
  apply unique_arr. constructor; [apply B|constructor; [apply B|constructor]].
Qed.
Lemma function_one v ms r ms' r' : unique_names v -> function_value v ms r -> function_value v ms' r' -> ms = ms' /\ r = r'.
Proof.
  intros U (o & x & y & -> & H & (p & -> & _ & _ & _ & L & T) & _) (o' & x' & y' & Eo & H' & (p' & -> & _ & _ & _ & L' & T') & _). injection Eo as <-.
  apply unique_obj in U. fold (uniq_obj o) in U. assert (E := has_unique _ _ _ _ (proj1 U) H H'). injection E as <- _.
  apply has_names in H; auto. apply unique_arr in H. inversion_clear H as [|? ? Up _]. apply unique_obj in Up. fold (uniq_obj p) in Up. split.
  - refine (list_one _ p _ _ _ Up _ L L'). intros w a a' _ _ _ -> Q. now injection Q.
  - exact (text_one _ _ _ _ (proj1 Up) T T').
Qed.
