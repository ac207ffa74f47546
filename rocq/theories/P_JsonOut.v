(** The JSON output: what it says, unique names, texts, one reading. *)
From Coq Require Import List String Ascii Bool ZArith Arith Lia Sorted Permutation.
From Verif Require Import BaseStr BaseMap M_Types M_OpenAPI M_Service M_Json M_JsonOut S_Cache S_Json S_JsonOut P_Json P_JsonDoc P_JsonRead P_JsonAny.
Import ListNotations.
Local Open Scope string_scope.

(** ** Sorting *)
Lemma insert_perm {A} (x : string * A) l : Permutation (insert_key x l) (x :: l).
Proof. induction l as [|y l IH]; cbn; auto. destruct (str_ltb _ _); auto. rewrite IH. apply perm_swap. Qed.
Lemma sort_perm {A} (l : list (string * A)) : Permutation (sort_keys l) l.
Proof. induction l as [|x l IH]; cbn; auto. rewrite insert_perm. now apply perm_skip. Qed.
Lemma sort_map {A B} (g : A -> B) (l : list (string * A)) :
  sort_keys (map (fun ka => (fst ka, g (snd ka))) l) = map (fun ka => (fst ka, g (snd ka))) (sort_keys l).
Proof.
  induction l as [|x l IH]; auto. change (insert_key (fst x, g (snd x)) (sort_keys (map (fun ka => (fst ka, g (snd ka))) l))
    = map (fun ka => (fst ka, g (snd ka))) (insert_key x (sort_keys l))). rewrite IH. generalize (sort_keys l). clear.
  induction l as [|y l IH]; auto. cbn. destruct (str_ltb (fst y) (fst x)); auto. cbn. now rewrite IH.
Qed.

(** ** What is said *)
Lemma entries_ext {A} (R : jval -> A -> Prop) k o m s : same k o m -> says_entries R m k s -> says_entries R o k s.
Proof.
  intros S [(vs & l' & H & X)|(H & E)]; [left; exists vs, l'; split; auto; now apply S|right; split; auto; eapply same_absent; eauto].
Qed.
Lemma entries_self {A} (R : jval -> A -> Prop) k g l : Forall (fun ka => R (g (snd ka)) (snd ka)) l ->
  says_entries R (map_member k (sort_keys (map (fun ka => (fst ka, g (snd ka))) l))) k l.
Proof.
  intros F. rewrite sort_map. assert (P := sort_perm l). destruct (sort_keys l) as [|x r] eqn:E.
  - apply Permutation_nil in P. subst. right. split; auto. apply absent_nil.
  - left. exists (map (fun ka => (fst ka, g (snd ka))) (x :: r)), (x :: r). split; [left; reflexivity|]. split; [now symmetry|].
    assert (G : Forall (fun ka => R (g (snd ka)) (snd ka)) (x :: r)) by (rewrite Forall_forall in *; intros y I; apply F; eapply Permutation_in; eauto).
    clear - G. induction G; cbn [map]; constructor; auto. split; auto.
Qed.
Ltac said2 := lazymatch goal with
  | |- says_entries _ _ _ _ => eapply entries_ext; [find_member|apply entries_self]
  | |- _ => said end.

Section Value.
  Context (float : string -> string).
  Lemma tag_said t : tag_value (tag_json t) t.
  Proof. eexists. split; [reflexivity|]. repeat split; said. Qed.
  Lemma validation_said b : validation_value (validation_json b) b.
  Proof. eexists. split; [reflexivity|]. said. Qed.
  Lemma enums_said l : Forall (fun e => enum_value float (enum_json float e) e) l.
  Proof. apply Forall_forall. intros [x|z|b|x] _; cbn; auto. exists (itoa z). split; [reflexivity|apply itoa_integer]. Qed.
  Lemma field_said f : field_value (enum_value float) (field_json float f) f.
  Proof.
    induction f as [f IH] using Field_ind'. destruct f as [pkg typ name enum req emb sliceT arrayT arrayL mkp mkt mv sf bt vt doc].
    cbn [field_json f_structFields] in *. constructor; cbn; said2; auto using enums_said.
    - apply Forall_forall. intros x _. apply tag_said.
    - apply Forall_forall. intros x _. apply validation_said.
  Qed.
  Lemma param_said p : param_value (enum_value float) (param_json float p) p.
  Proof. eexists _, (field_json float (p_field p)). split; [reflexivity|]. repeat split; try said2. apply field_said. Qed.
  Lemma bodyParam_said p : bodyParam_value (enum_value float) (bodyParam_json float p) p.
  Proof. eexists _, (field_json float (b_field p)). split; [reflexivity|]. repeat split; try said2. apply field_said. Qed.
  Lemma returnType_said p : returnType_value (enum_value float) (returnType_json float p) p.
  Proof. eexists _, (field_json float (r_field p)). split; [reflexivity|]. repeat split; try said2. apply field_said. Qed.
  Lemma route_said r : route_value (enum_value float) (route_json float r) r.
  Proof.
    eexists _, (itoa (rt_line r)). split; [reflexivity|]. repeat split; try said2; try apply itoa_integer;
      apply Forall_forall; intros x _; (apply param_said || apply bodyParam_said || apply returnType_said).
  Qed.
  Lemma slice_said {A} (R : jval -> A -> Prop) (o : obj) k n g l : (forall a, R (g a) a) -> has o k (slice_json n (map g l)) -> says_slice R o k l.
  Proof.
    intros H I. destruct l as [|x l].
    - cbn in I. destruct n; [right; auto|left; exists []; split; [exact I|constructor]].
    - left. exists (map g (x :: l)). split; [exact I|]. clear I. induction (x :: l); cbn; constructor; auto.
  Qed.
  Lemma output_said nr nc routes comps : output_value (enum_value float) (output_json float nr nc routes comps) routes comps.
  Proof.
    eexists. split; [reflexivity|]. split.
    - apply (slice_said _ _ _ nr (route_json float)); [apply route_said|left; reflexivity].
    - apply (slice_said _ _ _ nc (field_json float)); [apply field_said|right; left; reflexivity].
  Qed.
End Value.

(** ** The fields of a field *)
Definition every (P : Field -> Prop) (f : Field) : Prop := Forall P (subfields f).
Lemma every_inv P f : every P f <-> P f /\ Forall (fun kf => every P (snd kf)) (f_structFields f).
Proof.
  destruct f as [pkg typ name enum req emb sliceT arrayT arrayL mkp mkt mv sf bt vt doc]. unfold every. cbn [subfields f_structFields].
  rewrite Forall_cons_iff. assert (X : Forall P (flat_map (fun kf => subfields (snd kf)) sf) <-> Forall (fun kf => Forall P (subfields (snd kf))) sf).
  { induction sf as [|x sf IH]; [split; constructor|]. cbn [flat_map]. rewrite Forall_app, Forall_cons_iff, IH. tauto. }
  rewrite X. tauto.
Qed.
Lemma output_every P routes comps : Forall P (output_fields routes comps) <->
  Forall (fun r => Forall (every P) (route_fields r)) routes /\ Forall (every P) comps.
Proof.
  unfold output_fields. assert (X : forall l, Forall P (flat_map subfields l) <-> Forall (every P) l).
  { induction l as [|x l IH]; [split; constructor|]. cbn [flat_map]. rewrite Forall_app, Forall_cons_iff, IH. tauto. }
  rewrite X, Forall_app. assert (Y : Forall (every P) (flat_map route_fields routes) <-> Forall (fun r => Forall (every P) (route_fields r)) routes).
  { induction routes as [|x l IH]; [split; constructor|]. cbn [flat_map]. rewrite Forall_app, Forall_cons_iff, IH. tauto. }
  now rewrite Y.
Qed.
Lemma route_every P r : Forall (every P) (route_fields r) <->
  Forall (fun p => every P (p_field p)) (rt_pathParams r) /\ Forall (fun p => every P (p_field p)) (rt_queryParams r) /\
  Forall (fun p => every P (b_field p)) (rt_body r) /\ Forall (fun p => every P (r_field p)) (rt_returns r) /\
  Forall (fun p => every P (p_field p)) (rt_reqHeaders r) /\ Forall (fun p => every P (p_field p)) (rt_respHeaders r).
Proof. unfold route_fields. rewrite !Forall_app, !Forall_map. tauto. Qed.

(** ** Unique names *)
Lemma sorted_keyed {A} (g : A -> jval) l : NoDup (map fst l) -> Forall (fun ka => unique_names (g (snd ka))) l ->
  distinct (sort_keys (map (fun ka : string * A => (fst ka, g (snd ka))) l)).
Proof.
  intros N F. destruct (distinct_keyed g l N F) as (D1 & D2). assert (P := sort_perm (map (fun ka : string * A => (fst ka, g (snd ka))) l)). split.
  - eapply Permutation_NoDup; [|exact D1]. apply Permutation_map. now symmetry.
  - rewrite Forall_forall in *. intros x I. apply D2. eapply Permutation_in; eauto.
Qed.
Ltac apart := repeat first [apply distinct_text; [solve [gone]|] | apply distinct_flag; [solve [gone]|] | apply distinct_int; [solve [gone]|]].
Section Unique.
  Context (float : string -> string).
  Lemma tag_unique t : unique_names (tag_json t).
  Proof. apply unique_obj. apart. apply distinct_end. apart. apply distinct_nil. Qed.
  Lemma validation_unique t : unique_names (validation_json t).
  Proof. apply unique_obj. apply distinct_end. apart. apply distinct_nil. Qed.
  Lemma field_unique f : every maps_once f -> unique_names (field_json float f).
  Proof.
    induction f as [f IH] using Field_ind'. rewrite every_inv. destruct f as [pkg typ name enum req emb sliceT arrayT arrayL mkp mkt mv sf bt vt doc].
    unfold maps_once. cbn [field_json f_structFields f_bindingTags f_validationTags] in *. intros ((N1 & N2 & N3) & F). apply unique_obj. apart.
    apply distinct_list; [apply Forall_map, Forall_forall; intros [x|x|x|x] _; exact Logic.I|gone|]. apart.
    apply distinct_map; [apply sorted_keyed; auto|gone|].
    { rewrite Forall_forall in *. auto. }
    apply distinct_map; [apply sorted_keyed; auto; apply Forall_forall; intros; apply tag_unique|gone|].
    apply distinct_map; [apply sorted_keyed; auto; apply Forall_forall; intros; apply validation_unique|gone|].
    apply distinct_end. apart. apply distinct_nil.
  Qed.
  Lemma param_unique p : every maps_once (p_field p) -> unique_names (param_json float p).
  Proof. intros H. apply unique_obj. apart. apply distinct_cons; [now apply field_unique|gone|]. apart. apply distinct_end. apart. apply distinct_nil. Qed.
  Lemma bodyParam_unique p : every maps_once (b_field p) -> unique_names (bodyParam_json float p).
  Proof. intros H. apply unique_obj. apart. apply distinct_cons; [now apply field_unique|gone|]. apart. apply distinct_end. apart. apply distinct_nil. Qed.
  Lemma returnType_unique p : every maps_once (r_field p) -> unique_names (returnType_json float p).
  Proof. intros H. apply unique_obj. apart. apply distinct_cons; [now apply field_unique|gone|apply distinct_nil]. Qed.
  Lemma route_unique r : Forall (every maps_once) (route_fields r) -> unique_names (route_json float r).
  Proof.
    rewrite route_every. intros (H1 & H2 & H3 & H4 & H5 & H6). apply unique_obj.
    repeat (apply distinct_cons; [exact I|gone|]).
    assert (X : forall l, Forall (fun p => every maps_once (p_field p)) l -> Forall unique_names (map (param_json float) l)).
    { intros l F. apply Forall_map. eapply Forall_impl; [|exact F]. intros p. apply param_unique. }
    apply distinct_list; [auto|gone|]. apply distinct_list; [auto|gone|].
    apply distinct_list; [apply Forall_map; eapply Forall_impl; [|exact H3]; intros p; apply bodyParam_unique|gone|].
    apply distinct_list; [apply Forall_map; eapply Forall_impl; [|exact H4]; intros p; apply returnType_unique|gone|]. apart.
    apply distinct_list; [auto|gone|]. apply distinct_end, distinct_list; [auto|gone|apply distinct_nil].
  Qed.
  Lemma slice_unique n l : Forall unique_names l -> unique_names (slice_json n l).
  Proof. intros H. destruct l; [destruct n; exact I|]. now apply unique_arr. Qed.
  Lemma output_unique nr nc routes comps : Forall maps_once (output_fields routes comps) -> unique_names (output_json float nr nc routes comps).
  Proof.
    rewrite output_every. intros (R & C). apply unique_obj. apply distinct_cons; [apply slice_unique|gone|apply distinct_cons; [apply slice_unique|gone|apply distinct_nil]].
    - apply Forall_map. eapply Forall_impl; [|exact R]. intros r. apply route_unique.
    - apply Forall_map. eapply Forall_impl; [|exact C]. intros r. apply field_unique.
  Qed.
End Unique.

(** ** Texts *)
Section Sound.
  Context (float : string -> string) (Hf : forall t, number (float t)).
  Lemma sorted_sounds {A} (g : A -> jval) (l : list (string * A)) : Forall utf8 (map fst l) -> Forall (fun ka => sound (g (snd ka))) l ->
    sounds (sort_keys (map (fun ka => (fst ka, g (snd ka))) l)).
  Proof.
    intros K F. rewrite sort_map. apply Forall_map. rewrite Forall_map in K. rewrite Forall_forall in *. intros x I.
    apply (Permutation_in _ (sort_perm l)) in I. split; [now apply K|now apply F].
  Qed.
  Ltac plain := repeat first [apply sounds_nil | apply sounds_app; [first [apply sounds_text; [latin|assumption]|apply sounds_flag; latin|apply sounds_int; latin]|]
                             | apply sounds_text; [latin|assumption] | apply sounds_flag; latin | apply sounds_int; latin].
  Lemma field_sound f : every (fun g => Forall utf8 (own_texts g)) f -> sound (field_json float f).
  Proof.
    induction f as [f IH] using Field_ind'. rewrite every_inv. destruct f as [pkg typ name enum req emb sliceT arrayT arrayL mkp mkt mv sf bt vt doc].
    unfold own_texts. cbn [field_json f_package f_type f_name f_enum f_sliceType f_arrayType f_mapKeyPackage f_mapKeyType f_mapValueType f_doc f_structFields f_bindingTags f_validationTags] in *.
    intros (T & F). rewrite !Forall_app in T. destruct T as (T & E & K1 & K2 & K2' & K3). repeat (apply Forall_cons_iff in T as [? T]).
    apply sound_obj. fold sounds. plain.
    apply sounds_app; [apply sounds_list; [latin|]|].
    { apply Forall_map. rewrite flat_forall in E. eapply Forall_impl; [|exact E]. intros [x|x|x|x] U; cbn in *; auto using itoa_number. now inversion U. }
    plain. apply sounds_app; [apply sounds_map; [latin|]|].
    { apply sorted_sounds; auto. rewrite Forall_forall in *. auto. }
    apply sounds_app; [apply sounds_map; [latin|]|].
    { apply sorted_sounds; auto. rewrite Forall_map in K2'. eapply Forall_impl; [|exact K2']. intros kt U. apply sound_obj. fold sounds. plain. }
    apply sounds_app; [apply sounds_map; [latin|]|plain].
    apply sorted_sounds; auto. apply Forall_forall. intros kv _. apply sound_obj. fold sounds. plain.
  Qed.
  Notation fine := (every (fun g => Forall utf8 (own_texts g))).
  Lemma param_sound p : utf8 (p_name p) -> fine (p_field p) -> sound (param_json float p).
  Proof. intros U F. apply sound_obj. fold sounds. plain. apply sounds_cons; [latin|now apply field_sound|]. plain. Qed.
  Lemma bodyParam_sound p : utf8 (b_name p) -> utf8 (b_contentType p) -> fine (b_field p) -> sound (bodyParam_json float p).
  Proof. intros U U' F. apply sound_obj. fold sounds. plain. apply sounds_cons; [latin|now apply field_sound|]. plain. Qed.
  Lemma returnType_sound p : utf8 (r_contentType p) -> fine (r_field p) -> sound (returnType_json float p).
  Proof. intros U F. apply sound_obj. fold sounds. plain. apply sounds_cons; [latin|now apply field_sound|]. plain. Qed.
  Lemma route_sound r : Forall utf8 (route_texts r) -> Forall fine (route_fields r) -> sound (route_json float r).
  Proof.
    unfold route_texts. rewrite route_every, !map_app, !Forall_app, !Forall_map. intros (T & (N1 & N2 & N3 & N4) & N5 & N6 & N7) (F1 & F2 & F3 & F4 & F5 & F6).
    repeat (apply Forall_cons_iff in T as [? T]).
    assert (X : forall l, Forall (fun p => utf8 (p_name p)) l -> Forall (fun p => fine (p_field p)) l -> Forall sound (map (param_json float) l)).
    { intros l U F. apply Forall_map. rewrite Forall_forall in *. intros p I. apply param_sound; auto. }
    apply sound_obj. fold sounds. repeat (apply sounds_cons; [latin|first [assumption|apply itoa_number]|]).
    apply sounds_app; [apply sounds_list; [latin|auto]|]. apply sounds_app; [apply sounds_list; [latin|auto]|].
    apply sounds_app; [apply sounds_list; [latin|]|].
    { apply Forall_map. rewrite Forall_forall in *. intros p I. apply bodyParam_sound; auto. }
    apply sounds_app; [apply sounds_list; [latin|]|].
    { apply Forall_map. rewrite Forall_forall in *. intros p I. apply returnType_sound; auto. }
    plain. apply sounds_app; apply sounds_list; auto; latin.
  Qed.
  Lemma slice_sound n l : Forall sound l -> sound (slice_json n l).
  Proof. intros H. destruct l; [destruct n; exact I|]. now apply sound_arr. Qed.
  Lemma output_sound nr nc routes comps : Forall utf8 (output_texts routes comps) -> sound (output_json float nr nc routes comps).
  Proof.
    unfold output_texts. rewrite Forall_app, !flat_forall, output_every. intros (T & R & C). apply sound_obj. fold sounds.
    apply sounds_cons; [latin|apply slice_sound|apply sounds_cons; [latin|apply slice_sound|apply sounds_nil]]; apply Forall_map.
    - rewrite Forall_forall in *. intros r I. apply route_sound; auto.
    - eapply Forall_impl; [|exact C]. intros f. apply field_sound.
  Qed.
End Sound.

(** ** One reading *)
Lemma sorted_one {A} (l l' : list (string * A)) : StronglySorted str_lt (map fst l) -> StronglySorted str_lt (map fst l') -> Permutation l l' -> l = l'.
Proof.
  revert l'. induction l as [|x l IH]; intros [|y l'] S S' P; auto.
  - now apply Permutation_nil in P.
  - symmetry in P. now apply Permutation_nil in P.
  - cbn in S, S'. inversion_clear S as [|? ? S1 L1]. inversion_clear S' as [|? ? S2 L2]. rewrite Forall_map, Forall_forall in L1, L2.
    assert (x = y) as <-.
    { destruct (Permutation_in x P (or_introl eq_refl)) as [E|I]; [auto|]. destruct (Permutation_in y (Permutation_sym P) (or_introl eq_refl)) as [E|I']; [auto|].
      assert (Q := L2 _ I). assert (Q' := L1 _ I'). exfalso. exact (str_lt_irrefl _ (str_lt_trans _ _ _ Q Q')). }
    f_equal. apply IH; auto. eapply Permutation_cons_inv; eauto.
Qed.
Lemma entries_same {A} (R : jval -> A -> Prop) (S : A -> A -> Prop) o k l l' : uniq_obj o ->
  (forall v ka ka', unique_names v -> In ka l -> In ka' l' -> R v (snd ka) -> R v (snd ka') -> S (snd ka) (snd ka')) ->
  says_entries R o k l -> says_entries R o k l' ->
  exists l2, Forall2 (fun ka ka' => fst ka = fst ka' /\ S (snd ka) (snd ka')) l l2 /\ Permutation l2 l'.
Proof.
  intros U O [(vs & p & H & P & F)|(A1 & ->)] [(vs' & p' & H' & P' & F')|(A2 & ->)]; try clash; [|exists []; split; auto].
  assert (E := has_unique _ _ _ _ (proj1 U) H H'). injection E as <-. apply has_names in H; auto. apply unique_obj in H as (_ & Uv).
  assert (T : Forall2 (fun ka ka' => fst ka = fst ka' /\ S (snd ka) (snd ka')) p p').
  { assert (O' : forall v ka ka', unique_names v -> In ka p -> In ka' p' -> R v (snd ka) -> R v (snd ka') -> S (snd ka) (snd ka')).
    { intros v ka ka' W I I'. apply O; auto; [apply (Permutation_in _ (Permutation_sym P))|apply (Permutation_in _ (Permutation_sym P'))]; auto. }
    clear - O' F F' Uv. revert p' F' O'. induction F as [|(j & v) y vs p (E1 & R1) F IH]; intros p' F' O'; inversion F' as [|? y' ? p2 (E2 & R2) F2]; subst; constructor.
    - cbn in *. split; [congruence|]. inversion_clear Uv. apply (O' v); auto; left; auto.
    - inversion_clear Uv. apply IH; auto. intros. eapply O'; eauto; right; auto. }
  destruct (Permutation_Forall2 (Permutation_sym P) T) as (l2 & P2 & F2). exists l2. split; auto. rewrite <- P2. now symmetry.
Qed.
Lemma entries_perm {A} (R : jval -> A -> Prop) o k l l' : uniq_obj o -> (forall v a a', unique_names v -> R v a -> R v a' -> a = a') ->
  says_entries R o k l -> says_entries R o k l' -> Permutation l l'.
Proof.
  intros U O H H'. destruct (entries_same R eq o k l l' U) as (l2 & F & P); eauto. rewrite <- P. replace l2 with l; auto.
  clear - F. induction F as [|(a & b) (c & d) l l' (E & E') F IH]; auto. cbn in *. now subst.
Qed.
Section One.
  Context (E : jval -> enumval -> Prop) (HE : forall v e e', (forall t, e <> EFloat t) -> (forall t, e' <> EFloat t) -> E v e -> E v e' -> e = e').
  Lemma tag_one v t t' : unique_names v -> tag_value v t -> tag_value v t' -> t = t'.
  Proof.
    intros U (o & -> & A1 & A2 & A3) (o' & Eo & B1 & B2 & B3). injection Eo as <-. apply unique_obj in U as (N & _). destruct t, t'; cbn in *.
    assert (Q1 := text_one _ _ _ _ N A1 B1). assert (Q2 := flag_one _ _ _ _ N A2 B2). assert (Q3 := flag_one _ _ _ _ N A3 B3). congruence.
  Qed.
  Lemma validation_one v t t' : unique_names v -> validation_value v t -> validation_value v t' -> t = t'.
  Proof. intros U (o & -> & A1) (o' & Eo & B1). injection Eo as <-. apply unique_obj in U as (N & _). eapply flag_one; eassumption. Qed.
  Lemma field_inv v f : field_value E v f -> exists o, v = JObj o /\
      says_text o "package" (f_package f) /\ says_text o "type" (f_type f) /\ says_text o "name" (f_name f) /\
      says_list E o "enumValues" (f_enum f) /\
      says_flag o "isRequired" (f_isRequired f) /\ says_flag o "isEmbedded" (f_isEmbedded f) /\
      says_text o "sliceType" (f_sliceType f) /\ says_text o "arrayType" (f_arrayType f) /\ says_int o "arrayLength" (f_arrayLength f) /\
      says_text o "mapKeyPackage" (f_mapKeyPackage f) /\ says_text o "mapKeyType" (f_mapKeyType f) /\ says_text o "mapValueType" (f_mapValueType f) /\
      says_entries (field_value E) o "structFields" (f_structFields f) /\
      says_entries tag_value o "structFieldBindingTags" (f_bindingTags f) /\
      says_entries validation_value o "structFieldValidationTags" (f_validationTags f) /\
      says_text o "doc" (f_doc f).
  Proof. intros H. inversion H; subst. eexists. split; [reflexivity|]. tauto. Qed.
  Ltac easy_one := repeat match goal with
    | N : NoDup (map fst ?o), A : says_text ?o ?k ?x, B : says_text ?o ?k ?y |- _ => assert (x = y) by exact (text_one o k x y N A B); clear A B
    | N : NoDup (map fst ?o), A : says_flag ?o ?k ?x, B : says_flag ?o ?k ?y |- _ => assert (x = y) by exact (flag_one o k x y N A B); clear A B
    | N : NoDup (map fst ?o), A : says_int ?o ?k ?x, B : says_int ?o ?k ?y |- _ => assert (x = y) by exact (int_one_value o k x y N A B); clear A B
    end.
  Lemma field_one f : forall v f', unique_names v -> every no_floats f -> every no_floats f' -> field_value E v f -> field_value E v f' -> same_field f f'.
  Proof.
    induction f as [f IH] using Field_ind'. intros v f' U X X' V V'. apply every_inv in X as (NF & X), X' as (NF' & X').
    apply field_inv in V as (o & -> & A1 & A2 & A3 & A4 & A5 & A6 & A7 & A8 & A9 & A10 & A11 & A12 & A13 & A14 & A15 & A16).
    apply field_inv in V' as (o' & Eo & B1 & B2 & B3 & B4 & B5 & B6 & B7 & B8 & B9 & B10 & B11 & B12 & B13 & B14 & B15 & B16). injection Eo as <-.
    apply unique_obj in U. assert (Uo : uniq_obj o) by exact U. destruct U as (N & _).
    destruct f as [pkg typ name enum req emb sliceT arrayT arrayL mkp mkt mv sf bt vt doc], f' as [pkg' typ' name' enum' req' emb' sliceT' arrayT' arrayL' mkp' mkt' mv' sf' bt' vt' doc'].
    unfold no_floats in *. cbn in *. easy_one.
    assert (enum = enum').
    { refine (list_one _ o _ _ _ Uo _ A4 B4). intros w e e' _ I I'. apply HE; intros t ->; [exact (NF t I)|exact (NF' t I')]. }
    destruct (entries_same (field_value E) same_field o "structFields" sf sf' Uo) as (sf2 & F & P); [|exact A13|exact B13|].
    { intros w e e' Uw I I'. rewrite Forall_forall in *. apply IH; auto. }
    assert (Pb := entries_perm _ o _ _ _ Uo tag_one A14 B14). assert (Pv := entries_perm _ o _ _ _ Uo validation_one A15 B15).
    subst. exact (same_field_intro _ _ _ _ _ _ _ _ _ _ _ _ _ _ _ _ _ _ _ _ F P Pb Pv).
  Qed.
  Notation fine := (every no_floats).
  Lemma param_one v p p' : unique_names v -> fine (p_field p) -> fine (p_field p') -> param_value E v p -> param_value E v p' -> same_param p p'.
  Proof.
    intros U F F' (o & t & -> & A1 & A2 & A3 & A4 & A5 & A6 & A7) (o' & t' & Eo & B1 & B2 & B3 & B4 & B5 & B6 & B7). injection Eo as <-.
    apply unique_obj in U. assert (Uo : uniq_obj o) by exact U. destruct U as (N & _). assert (t = t') as <- by (eapply has_unique; eauto).
    assert (Ef := field_one _ _ _ (has_names _ _ _ Uo A2) F F' A3 B3). split; [exact Ef|]. destruct p, p'; cbn in *. easy_one. subst. reflexivity.
  Qed.
  Lemma bodyParam_one v p p' : unique_names v -> fine (b_field p) -> fine (b_field p') -> bodyParam_value E v p -> bodyParam_value E v p' -> same_body p p'.
  Proof.
    intros U F F' (o & t & -> & A1 & A2 & A3 & A4 & A5 & A6 & A7 & A8) (o' & t' & Eo & B1 & B2 & B3 & B4 & B5 & B6 & B7 & B8). injection Eo as <-.
    apply unique_obj in U. assert (Uo : uniq_obj o) by exact U. destruct U as (N & _). assert (t = t') as <- by (eapply has_unique; eauto).
    assert (Ef := field_one _ _ _ (has_names _ _ _ Uo A2) F F' A3 B3). split; [exact Ef|]. destruct p, p'; cbn in *. easy_one. subst. reflexivity.
  Qed.
  Lemma returnType_one v p p' : unique_names v -> fine (r_field p) -> fine (r_field p') -> returnType_value E v p -> returnType_value E v p' -> same_return p p'.
  Proof.
    intros U F F' (o & t & -> & A1 & A2 & A3 & A4) (o' & t' & Eo & B1 & B2 & B3 & B4). injection Eo as <-.
    apply unique_obj in U. assert (Uo : uniq_obj o) by exact U. destruct U as (N & _). assert (t = t') as <- by (eapply has_unique; eauto).
    assert (Ef := field_one _ _ _ (has_names _ _ _ Uo A3) F F' A4 B4). split; [exact Ef|]. destruct p, p'; cbn in *. easy_one. subst. reflexivity.
  Qed.
  Lemma str_one (o : obj) k s s' : uniq_obj o -> has o k (JStr s) -> has o k (JStr s') -> s = s'.
  Proof. intros U H H'. assert (Eo := has_unique _ _ _ _ (proj1 U) H H'). now injection Eo. Qed.
  Lemma forall2_same {A} (R : jval -> A -> Prop) (S : A -> A -> Prop) vs : Forall unique_names vs -> forall l l',
    (forall v a a', unique_names v -> In a l -> In a' l' -> R v a -> R v a' -> S a a') -> Forall2 R vs l -> Forall2 R vs l' -> Forall2 S l l'.
  Proof.
    induction vs as [|v vs IH]; intros U l l' O F F'; inversion F; subst; inversion F'; subst; auto. inversion_clear U.
    constructor; [eapply O; eauto; left; reflexivity|]. apply IH; auto. intros. eapply O; eauto; right; assumption.
  Qed.
  Lemma list_same {A} (R : jval -> A -> Prop) (S : A -> A -> Prop) o k l l' : uniq_obj o -> (forall v a a', unique_names v -> In a l -> In a' l' -> R v a -> R v a' -> S a a') ->
    says_list R o k l -> says_list R o k l' -> Forall2 S l l'.
  Proof.
    intros U O [(vs & H & F)|(A' & ->)] [(vs' & H' & F')|(A'' & ->)]; try clash; auto.
    assert (Eo := has_unique _ _ _ _ (proj1 U) H H'). injection Eo as <-. apply (forall2_same R S vs); auto.
    apply has_names in H; auto. now apply unique_arr.
  Qed.
  Lemma route_one v r r' : unique_names v -> Forall fine (route_fields r) -> Forall fine (route_fields r') -> route_value E v r -> route_value E v r' -> same_route r r'.
  Proof.
    rewrite !route_every. intros U (F1 & F2 & F3 & F4 & F5 & F6) (G1 & G2 & G3 & G4 & G5 & G6).
    intros (o & t & -> & A1 & A2 & A3 & A3' & A4 & A5 & A6 & A7 & A8 & A9 & A10 & A11 & A12 & A13) (o' & t' & Eo & B1 & B2 & B3 & B3' & B4 & B5 & B6 & B7 & B8 & B9 & B10 & B11 & B12 & B13).
    injection Eo as <-. apply unique_obj in U. assert (Uo : uniq_obj o) by exact U. destruct U as (N & _).
    assert (Et := has_unique _ _ _ _ N A3 B3). injection Et as <-. rewrite Forall_forall in *.
    assert (Q1 := str_one _ _ _ _ Uo A1 B1). assert (Q2 := str_one _ _ _ _ Uo A2 B2). assert (Q3 := integer_one _ _ _ A3' B3').
    assert (Q4 := str_one _ _ _ _ Uo A4 B4). assert (Q5 := str_one _ _ _ _ Uo A5 B5).
    assert (Q6 := text_one _ _ _ _ N A10 B10). assert (Q7 := text_one _ _ _ _ N A11 B11).
    assert (P : forall k l l', (forall p, In p l -> fine (p_field p)) -> (forall p, In p l' -> fine (p_field p)) ->
      says_list (param_value E) o k l -> says_list (param_value E) o k l' -> Forall2 same_param l l').
    { intros k l l' X X' Y Y'. refine (list_same _ _ o _ _ _ Uo _ Y Y'). intros w e e' Uw I I'. apply param_one; auto. }
    split; [rewrite Q1, Q2, Q3, Q4, Q5, Q6, Q7; reflexivity|].
    split; [exact (P _ _ _ F1 G1 A6 B6)|]. split; [exact (P _ _ _ F2 G2 A7 B7)|].
    split; [|split; [|split; [exact (P _ _ _ F5 G5 A12 B12)|exact (P _ _ _ F6 G6 A13 B13)]]].
    - refine (list_same _ _ o _ _ _ Uo _ A8 B8). intros w e e' Uw I I'. apply bodyParam_one; auto.
    - refine (list_same _ _ o _ _ _ Uo _ A9 B9). intros w e e' Uw I I'. apply returnType_one; auto.
  Qed.
  Lemma slice_same {A} (R : jval -> A -> Prop) (S : A -> A -> Prop) o k l l' : uniq_obj o -> (forall v a a', unique_names v -> In a l -> In a' l' -> R v a -> R v a' -> S a a') ->
    says_slice R o k l -> says_slice R o k l' -> Forall2 S l l'.
  Proof.
    intros U O [(vs & H & F)|(H & ->)] [(vs' & H' & F')|(H' & ->)]; auto; assert (Eo := has_unique _ _ _ _ (proj1 U) H H'); try discriminate.
    injection Eo as <-. apply (forall2_same R S vs); auto. apply has_names in H; auto. now apply unique_arr.
  Qed.
  Lemma output_one v rs cs rs' cs' : unique_names v -> Forall no_floats (output_fields rs cs) -> Forall no_floats (output_fields rs' cs') ->
    output_value E v rs cs -> output_value E v rs' cs' -> Forall2 same_route rs rs' /\ Forall2 same_field cs cs'.
  Proof.
    rewrite !output_every. intros U (F1 & F2) (G1 & G2) (o & -> & A1 & A2) (o' & Eo & B1 & B2). injection Eo as <-.
    apply unique_obj in U. fold (uniq_obj o) in U. rewrite Forall_forall in F1, F2, G1, G2. split.
    - refine (slice_same _ _ o _ _ _ U _ A1 B1). intros w e e' Uw I I'. apply route_one; auto; rewrite Forall_forall; auto.
    - refine (slice_same _ _ o _ _ _ U _ A2 B2). intros w e e' Uw I I'. apply field_one; auto.
  Qed.
End One.

(** ** Numbers *)
Section Numeric.
  Context (float : string -> string) (Hf : forall t, number (float t)).
  Lemma field_numeric f : numeric (field_json float f).
  Proof.
    induction f as [f IH] using Field_ind'. destruct f as [pkg typ name enum req emb sliceT arrayT arrayL mkp mkt mv sf bt vt doc].
    cbn [field_json f_structFields] in *. rewrite !sort_map. apply numeric_obj. fold numerics. num.
    - apply Forall_forall. intros [x|x|x|x] _; cbn; auto using itoa_number.
    - rewrite Forall_forall in *. intros x I. apply IH. eapply Permutation_in; [apply sort_perm|exact I].
    - apply Forall_forall. intros x _. apply numeric_obj. fold numerics. num.
    - apply Forall_forall. intros x _. apply numeric_obj. fold numerics. num.
  Qed.
  Lemma route_numeric r : numeric (route_json float r).
  Proof.
    apply numeric_obj. fold numerics. num; try exact I; try apply itoa_number; apply Forall_forall; intros x _; apply numeric_obj; fold numerics; num; apply field_numeric.
  Qed.
  Lemma slice_numeric n l : Forall numeric l -> numeric (slice_json n l).
  Proof. intros H. destruct l; [destruct n; exact I|]. now apply numeric_arr. Qed.
  Lemma output_numeric nr nc routes comps : numeric (output_json float nr nc routes comps).
  Proof.
    apply numeric_obj. fold numerics. num; apply slice_numeric, Forall_map, Forall_forall; intros x _; [apply route_numeric|apply field_numeric].
  Qed.
End Numeric.

(** ** The order of maps *)
Lemma insert_sorted {A} (x : string * A) l : StronglySorted str_lt (map fst l) -> ~ In (fst x) (map fst l) -> StronglySorted str_lt (map fst (insert_key x l)).
Proof.
  induction l as [|y l IH]; cbn; intros S N; [repeat constructor|]. inversion_clear S as [|? ? S1 L]. destruct (str_ltb (fst y) (fst x)) eqn:E; cbn.
  - constructor; [apply IH; tauto|]. rewrite Forall_forall in *. intros k I. apply (Permutation_in _ (Permutation_map fst (insert_perm x l))) in I.
    destruct I as [<-|I]; [exact E|auto].
  - constructor; [now constructor|]. assert (X : str_lt (fst x) (fst y)).
    { destruct (str_trichotomy (fst x) (fst y)) as [T|[T|T]]; auto; [elim N; auto|]. unfold str_lt in T. congruence. }
    constructor; auto. eapply Forall_impl; [|exact L]. intros k. now apply str_lt_trans.
Qed.
Lemma sort_sorted {A} (l : list (string * A)) : NoDup (map fst l) -> StronglySorted str_lt (map fst (sort_keys l)).
Proof.
  induction l as [|x l IH]; cbn; intros N; [constructor|]. inversion_clear N as [|? ? X N']. apply insert_sorted; auto.
  intros I. apply X. now apply (Permutation_in _ (Permutation_map fst (sort_perm l))).
Qed.
Lemma sort_order {A} (l l' : list (string * A)) : NoDup (map fst l) -> Permutation l l' -> sort_keys l = sort_keys l'.
Proof.
  intros N P. apply sorted_one; [now apply sort_sorted| |].
  - apply sort_sorted. eapply Permutation_NoDup; [apply Permutation_map, P|exact N].
  - now rewrite !sort_perm.
Qed.
Section Order.
  Context (float : string -> string).
  Lemma field_order f : forall f', every maps_once f -> same_field f f' -> field_json float f = field_json float f'.
  Proof.
    induction f as [f IH] using Field_ind'. intros f' M S. apply every_inv in M as ((N1 & N2 & N3) & M).
    destruct S as [pkg typ name enum req emb sliceT arrayT arrayL mkp mkt mv sf sf' sf2 bt bt' vt vt' doc F P Pb Pv].
    cbn [f_structFields f_bindingTags f_validationTags field_json] in *.
    assert (E : map (fun kf => (fst kf, field_json float (snd kf))) sf = map (fun kf => (fst kf, field_json float (snd kf))) sf2).
    { clear - F IH M. revert IH M. induction F as [|x y l l' (K & S) F IHF]; intros IH M; auto. inversion_clear IH as [|? ? I1 I2]. inversion_clear M as [|? ? M1 M2]. cbn. rewrite IHF; auto. rewrite K. rewrite (I1 _ M1 S). reflexivity. }
    assert (K : map fst sf = map fst sf2) by (clear - F; induction F as [|x y l l' (K & S) F IHF]; cbn; congruence).
    rewrite E, !sort_map, (sort_order sf2 sf'), (sort_order bt bt'), (sort_order vt vt'); auto. now rewrite <- K.
  Qed.
  Lemma map_order {A} (R : A -> A -> Prop) (P : A -> Prop) (g : A -> jval) l l' : (forall a a', P a -> R a a' -> g a = g a') -> Forall P l -> Forall2 R l l' -> map g l = map g l'.
  Proof. intros H F T. revert F. induction T; intros F; auto. inversion_clear F. cbn. f_equal; auto. Qed.
  Lemma param_order p p' : every maps_once (p_field p) -> same_param p p' -> param_json float p = param_json float p'.
  Proof. intros M (S & E). unfold param_json. rewrite (field_order _ _ M S). injection E as -> -> -> -> ->. reflexivity. Qed.
  Lemma body_order p p' : every maps_once (b_field p) -> same_body p p' -> bodyParam_json float p = bodyParam_json float p'.
  Proof. intros M (S & E). unfold bodyParam_json. rewrite (field_order _ _ M S). injection E as -> -> -> -> -> ->. reflexivity. Qed.
  Lemma return_order p p' : every maps_once (r_field p) -> same_return p p' -> returnType_json float p = returnType_json float p'.
  Proof. intros M (S & E). unfold returnType_json. rewrite (field_order _ _ M S). injection E as -> ->. reflexivity. Qed.
  Lemma route_order r r' : Forall (every maps_once) (route_fields r) -> same_route r r' -> route_json float r = route_json float r'.
  Proof.
    rewrite route_every. intros (F1 & F2 & F3 & F4 & F5 & F6) (E & S1 & S2 & S3 & S4 & S5 & S6). unfold route_json.
    rewrite (map_order _ _ _ _ _ param_order F1 S1), (map_order _ _ _ _ _ param_order F2 S2), (map_order _ _ _ _ _ body_order F3 S3),
      (map_order _ _ _ _ _ return_order F4 S4), (map_order _ _ _ _ _ param_order F5 S5), (map_order _ _ _ _ _ param_order F6 S6).
    injection E as -> -> -> -> -> -> ->. reflexivity.
  Qed.
  Lemma output_order nr nc rs cs rs' cs' : Forall maps_once (output_fields rs cs) -> Forall2 same_route rs rs' -> Forall2 same_field cs cs' ->
    output_json float nr nc rs cs = output_json float nr nc rs' cs'.
  Proof.
    rewrite output_every. intros (R & C) SR SC. unfold output_json.
    rewrite (map_order _ _ _ _ _ route_order R SR), (map_order _ _ _ _ _ field_order C SC). reflexivity.
  Qed.
End Order.
