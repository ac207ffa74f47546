(** A JSON value says one document. *)
From Coq Require Import List String Ascii Bool ZArith NArith Arith Lia DecimalString.
From Verif Require Import BaseStr BaseMap M_Types M_OpenAPI M_Json S_Cache S_Json P_Json P_JsonDoc.
Import ListNotations.
Local Open Scope string_scope.

Definition uniq_obj (o : obj) : Prop := NoDup (map fst o) /\ Forall (fun kv => unique_names (snd kv)) o.
Lemma has_unique (o : obj) k v v' : NoDup (map fst o) -> has o k v -> has o k v' -> v = v'.
Proof.
  unfold has. induction o as [|(j & x) o IH]; cbn; intros N H H'; [easy|]. inversion_clear N as [|? ? A B].
  destruct H as [E|H], H' as [E'|H']; try congruence; auto; (elim A; apply in_map_iff; eexists; split; [|eassumption]; cbn; congruence).
Qed.
Lemma has_absent (o : obj) k v : has o k v -> absent o k -> False.
Proof. intros H A. apply A. now apply (in_map fst) in H. Qed.
Ltac clash := match goal with H : has _ ?k _, A : absent _ ?k |- _ => elim (has_absent _ _ _ H A) end.
Lemma text_one o k s s' : NoDup (map fst o) -> says_text o k s -> says_text o k s' -> s = s'.
Proof. intros N [H|(A & ->)] [H'|(A' & ->)]; try clash; auto. assert (E := has_unique _ _ _ _ N H H'). congruence. Qed.
Lemma flag_one o k s s' : NoDup (map fst o) -> says_flag o k s -> says_flag o k s' -> s = s'.
Proof. intros N [H|(A & ->)] [H'|(A' & ->)]; try clash; auto. assert (E := has_unique _ _ _ _ N H H'). congruence. Qed.
Lemma integer_one t z z' : integer t z -> integer t z' -> z = z'.
Proof. intros (i & E & <-) (j & E' & <-). congruence. Qed.
Lemma int_one_value o k s s' : NoDup (map fst o) -> says_int o k s -> says_int o k s' -> s = s'.
Proof.
  intros N [(t & H & I)|(A & ->)] [(t' & H' & I')|(A' & ->)]; try clash; auto. assert (E := has_unique _ _ _ _ N H H'). injection E as <-. eapply integer_one; eauto.
Qed.
(** What a relation says of the values inside an object, it says of one thing. *)
Definition says_one {A} (R : jval -> A -> Prop) (P : A -> Prop) : Prop := forall v a a', unique_names v -> P a -> P a' -> R v a -> R v a' -> a = a'.
Lemma has_names o k v : uniq_obj o -> has o k v -> unique_names v.
Proof. intros (_ & F) H. rewrite Forall_forall in F. exact (F _ H). Qed.
Lemma opt_one {A} (R : jval -> A -> Prop) P o k x x' : uniq_obj o -> (forall v a a', unique_names v -> x = Some a -> x' = Some a' -> R v a -> R v a' -> P a -> P a' -> a = a') ->
  (forall a, x = Some a -> P a) -> (forall a, x' = Some a -> P a) -> says_opt R o k x -> says_opt R o k x' -> x = x'.
Proof.
  intros U O H1 H2 [(v & a & H & -> & Ra)|(A' & ->)] [(v' & a' & H' & -> & Ra')|(A'' & ->)]; try clash; auto.
  assert (E := has_unique _ _ _ _ (proj1 U) H H'). subst v'. f_equal. eapply O; eauto. eapply has_names; eauto.
Qed.
Lemma forall2_one {A} (R : jval -> A -> Prop) vs : Forall unique_names vs -> forall l l',
  (forall v a a', unique_names v -> In a l -> In a' l' -> R v a -> R v a' -> a = a') -> Forall2 R vs l -> Forall2 R vs l' -> l = l'.
Proof.
  induction vs as [|v vs IH]; intros U l l' O F F'; inversion F; subst; inversion F'; subst; auto. inversion_clear U.
  f_equal; [eapply O; eauto; left; reflexivity|]. apply IH; auto. intros. eapply O; eauto; right; assumption.
Qed.
Lemma list_one {A} (R : jval -> A -> Prop) o k l l' : uniq_obj o -> (forall v a a', unique_names v -> In a l -> In a' l' -> R v a -> R v a' -> a = a') ->
  says_list R o k l -> says_list R o k l' -> l = l'.
Proof.
  intros U O [(vs & H & F)|(A' & ->)] [(vs' & H' & F')|(A'' & ->)]; try clash; auto.
  assert (E := has_unique _ _ _ _ (proj1 U) H H'). injection E as <-. apply (forall2_one R vs); auto.
  apply has_names in H; auto. now apply unique_arr.
Qed.
Lemma map_one {A} (R : jval -> A -> Prop) o k l l' : uniq_obj o ->
  (forall v ka ka', unique_names v -> In ka l -> In ka' l' -> R v (snd ka) -> R v (snd ka') -> snd ka = snd ka') ->
  says_map R o k l -> says_map R o k l' -> l = l'.
Proof.
  intros U O [(vs & H & F)|(A' & ->)] [(vs' & H' & F')|(A'' & ->)]; try clash; auto.
  assert (E := has_unique _ _ _ _ (proj1 U) H H'). injection E as <-. apply has_names in H; auto. apply unique_obj in H as (N & Fu).
  clear H' N. revert l l' O F F'. induction vs as [|(j & v) vs IH]; intros l l' O F F'; inversion F as [|? y ? ? K1 K2]; subst; inversion F' as [|? y' ? ? K1' K2']; subst; auto.
  inversion_clear Fu as [|? ? Fv Fvs]. f_equal; [|apply IH; auto; intros; eapply O; eauto; right; assumption].
  destruct K1 as (E1 & R1), K1' as (E2 & R2). cbn in *. destruct y as (ky & ay), y' as (ky' & ay'). cbn in *. subst. f_equal.
  apply (O v (ky', ay) (ky', ay')); auto; left; reflexivity.
Qed.

Section Reader.
  Context (float : string -> string).
  Lemma enum_one v e e' : (forall t, e <> EFloat t) -> (forall t, e' <> EFloat t) -> enum_value float v e -> enum_value float v e' -> e = e'.
  Proof.
    intros N N'. destruct e; cbn; try (now elim (N text)).
    - intros ->. destruct e'; cbn; try congruence. intros (t & ? & _); discriminate.
    - intros (t & -> & I). destruct e'; cbn; try discriminate.
      + intros (t' & [= <-] & I'). f_equal. eapply integer_one; eauto.
      + now elim (N' text).
    - intros ->. destruct e'; cbn; try congruence. intros (t & ? & _); discriminate.
  Qed.
  Lemma schema_inv v s : schema_value float v s -> exists o, v = JObj o /\
    says_text o "$ref" (s_ref s) /\ says_text o "type" (s_type s) /\ says_text o "format" (s_format s) /\
      says_int o "maxLength" (s_maxLength s) /\ says_list (enum_value float) o "enum" (s_enum s) /\
      says_list (schema_value float) o "allOf" (s_allOf s) /\ says_opt (schema_value float) o "items" (s_items s) /\
      says_map (schema_value float) o "properties" (s_props s) /\ says_opt (schema_value float) o "additionalProperties" (s_addl s) /\
      says_text o "description" (s_desc s).
  Proof. destruct 1. eexists. split; [reflexivity|]. repeat split; assumption. Qed.
  Lemma exact_parts ref t f ml enum allOf items props addl desc : exact_schema (mkSchema ref t f ml enum allOf items props addl desc) ->
    (forall e x, In e enum -> e <> EFloat x) /\ (forall s, In s allOf -> exact_schema s) /\ (forall s, items = Some s -> exact_schema s) /\
    (forall ks, In ks props -> exact_schema (snd ks)) /\ (forall s, addl = Some s -> exact_schema s).
  Proof.
    unfold exact_schema. cbn [schema_enums]. intros H.
    assert (G : forall x, ~ In (EFloat x) enum /\ ~ In (EFloat x) (flat_map schema_enums allOf) /\
      ~ In (EFloat x) match items with None => [] | Some i => schema_enums i end /\ ~ In (EFloat x) (flat_map (fun kp => schema_enums (snd kp)) props) /\
      ~ In (EFloat x) match addl with None => [] | Some a => schema_enums a end).
    { intros x. specialize (H x). rewrite !in_app_iff in H. tauto. }
    repeat split.
    - intros e x I ->. now apply (proj1 (G x)).
    - intros s I x X. apply (proj1 (proj2 (G x))). apply in_flat_map. eauto.
    - intros s -> x X. now apply (proj1 (proj2 (proj2 (G x)))).
    - intros s I x X. apply (proj1 (proj2 (proj2 (proj2 (G x))))). apply in_flat_map. eauto.
    - intros s -> x X. now apply (proj2 (proj2 (proj2 (proj2 (G x))))).
  Qed.
  Lemma schema_one s : forall v s', unique_names v -> exact_schema s -> exact_schema s' -> schema_value float v s -> schema_value float v s' -> s = s'.
  Proof.
    induction s as [ref t f ml enum allOf items props addl desc IA II IP IAd] using Schema_ind'.
    intros v [ref' t' f' ml' enum' allOf' items' props' addl' desc'] U X X' H H'.
    apply exact_parts in X as (X1 & X2 & X3 & X4 & X5). apply exact_parts in X' as (Y1 & Y2 & Y3 & Y4 & Y5).
    apply schema_inv in H as (o & -> & A1 & A2 & A3 & A4 & A5 & A6 & A7 & A8 & A9 & A10).
    apply schema_inv in H' as (o' & E & B1 & B2 & B3 & B4 & B5 & B6 & B7 & B8 & B9 & B10). injection E as <-.
    cbn [s_ref s_type s_format s_maxLength s_enum s_allOf s_items s_props s_addl s_desc] in *.
    apply unique_obj in U. assert (Uo : uniq_obj o) by exact U. destruct U as (N & _).
    f_equal; try (eapply text_one; eassumption); try (eapply int_one_value; eassumption).
    - eapply list_one; try eassumption. intros w e e' _ I I'. apply enum_one; auto.
    - eapply list_one; try eassumption. intros w e e' Uw I I'. rewrite Forall_forall in IA. intros. eapply IA; eauto.
    - eapply (opt_one _ exact_schema); try eassumption. intros w a a' Uw E E' Ra Ra' Pa Pa'. eapply II; eauto.
    - eapply map_one; try eassumption. intros w e e' Uw I I'. rewrite Forall_forall in IP. intros. eapply IP; eauto.
    - eapply (opt_one _ exact_schema); try eassumption. intros w a a' Uw E E' Ra Ra' Pa Pa'. eapply IAd; eauto.
  Qed.
  Ltac unpack := repeat match goal with H : _ /\ _ |- _ => destruct H | H : exists _, _ |- _ => destruct H end.
  Ltac rest N := try (eapply text_one; eassumption); try (eapply flag_one; eassumption).
  Lemma parameter_one v p p' : unique_names v -> exact_schema (pa_schema p) -> exact_schema (pa_schema p') ->
    parameter_value float v p -> parameter_value float v p' -> p = p'.
  Proof.
    intros U X X' (o & sch & -> & A1 & A2 & A3 & A4 & A5 & A6 & A7) (o' & sch' & E & B1 & B2 & B3 & B4 & B5 & B6 & B7). injection E as <-.
    apply unique_obj in U. assert (Uo : uniq_obj o) by exact U. destruct U as (N & _).
    assert (sch = sch') as <- by (eapply has_unique; eauto).
    destruct p, p'; cbn in *. f_equal; rest N. eapply schema_one; eauto. eapply has_names; eauto.
  Qed.
  Lemma media_one v s s' : unique_names v -> exact_schema s -> exact_schema s' -> media_value float v s -> media_value float v s' -> s = s'.
  Proof.
    intros U X X' (o & sch & -> & A6 & A7) (o' & sch' & E & B6 & B7). injection E as <-.
    apply unique_obj in U. assert (Uo : uniq_obj o) by exact U. destruct U as (N & _).
    assert (sch = sch') as <- by (eapply has_unique; eauto). eapply schema_one; eauto. eapply has_names; eauto.
  Qed.
  Lemma header_one v h h' : unique_names v -> exact_schema (h_schema h) -> exact_schema (h_schema h') -> header_value float v h -> header_value float v h' -> h = h'.
  Proof.
    intros U X X' (o & sch & -> & A1 & A6 & A7) (o' & sch' & E & B1 & B6 & B7). injection E as <-.
    apply unique_obj in U. assert (Uo : uniq_obj o) by exact U. destruct U as (N & _).
    assert (sch = sch') as <- by (eapply has_unique; eauto). destruct h, h'; cbn in *. f_equal; rest N. eapply schema_one; eauto. eapply has_names; eauto.
  Qed.
  Lemma response_one v r r' : unique_names v -> Forall exact_schema (response_schemas r) -> Forall exact_schema (response_schemas r') ->
    response_value float v r -> response_value float v r' -> r = r'.
  Proof.
    unfold response_schemas. rewrite !Forall_app, !Forall_map, !Forall_forall.
    intros U (X1 & X2) (Y1 & Y2) (o & -> & _ & A1 & A2) (o' & E & _ & B1 & B2). injection E as <-. apply unique_obj in U.
    destruct r, r'; cbn in *. f_equal; (eapply map_one; [exact U| |eassumption|eassumption]).
    - intros w a a' Uw I I'. apply header_one; auto.
    - intros w a a' Uw I I'. apply media_one; auto.
  Qed.
  Lemma body_one v l l' : unique_names v -> Forall exact_schema (map snd l) -> Forall exact_schema (map snd l') ->
    body_value float v l -> body_value float v l' -> l = l'.
  Proof.
    rewrite !Forall_map, !Forall_forall. intros U X Y (o & -> & A) (o' & E & B). injection E as <-. apply unique_obj in U.
    eapply map_one; [exact U| |eassumption|eassumption]. intros w a a' Uw I I'. apply media_one; auto.
  Qed.
  Lemma operation_one v x x' : unique_names v -> Forall exact_schema (operation_schemas x) -> Forall exact_schema (operation_schemas x') ->
    operation_value float v x -> operation_value float v x' -> x = x'.
  Proof.
    unfold operation_schemas. rewrite !Forall_app, !Forall_map, !Forall_flat_map, !Forall_forall.
    intros U (X1 & X2 & X3) (Y1 & Y2 & Y3) (o & -> & A1 & A2 & A3 & A4 & A5) (o' & E & B1 & B2 & B3 & B4 & B5). injection E as <-. apply unique_obj in U.
    assert (N := proj1 U). destruct x, x'; cbn in *. f_equal; rest N.
    - eapply list_one; [exact U| |eassumption|eassumption]. intros w a a' Uw I I'. apply parameter_one; auto.
    - eapply (opt_one _ (fun l => Forall exact_schema (map snd l))); [exact U| | | |eassumption|eassumption].
      + intros w a a' Uw _ _ Ra Ra' Pa Pa'. eapply body_one; eauto.
      + intros a ->. now apply Forall_forall.
      + intros a ->. now apply Forall_forall.
    - eapply map_one; [exact U| |eassumption|eassumption]. intros w a a' Uw I I'. apply response_one; auto.
  Qed.
  Lemma path_one v p p' : unique_names v -> Forall exact_schema (flat_map operation_schemas (operations p)) -> Forall exact_schema (flat_map operation_schemas (operations p')) ->
    path_value float v p -> path_value float v p' -> p = p'.
  Proof.
    rewrite !Forall_flat_map. intros U X Y (o & -> & A1 & A2 & A3 & A4 & A5 & A6 & A7 & A8) (o' & E & B1 & B2 & B3 & B4 & B5 & B6 & B7 & B8). injection E as <-.
    apply unique_obj in U. destruct p, p'. unfold operations in X, Y. cbn in *. rewrite ?Forall_app in X. rewrite ?Forall_app in Y.
    assert (G : forall k a b, Forall (fun x => Forall exact_schema (operation_schemas x)) match a with None => [] | Some o => [o] end ->
       Forall (fun x => Forall exact_schema (operation_schemas x)) match b with None => [] | Some o => [o] end ->
       says_opt (operation_value float) o k a -> says_opt (operation_value float) o k b -> a = b).
    { intros k a b Ka Kb Sa Sb. eapply (opt_one _ (fun x => Forall exact_schema (operation_schemas x))); [exact U| | | |eassumption|eassumption].
      - intros w x y Uw _ _ Rx Ry Px Py. eapply operation_one; eauto.
      - intros x ->. now inversion Ka.
      - intros x ->. now inversion Kb. }
    destruct X as (X1 & X2 & X3 & X4 & X5 & X6 & X7 & X8 & _), Y as (Y1 & Y2 & Y3 & Y4 & Y5 & Y6 & Y7 & Y8 & _).
    f_equal; eapply G; eassumption.
  Qed.
  (** A value without repeated names says at most one document. *)
  Lemma document_one v d d' : unique_names v -> exact_document d -> exact_document d' -> document_value float v d -> document_value float v d' -> d = d'.
  Proof.
    unfold exact_document, document_schemas. rewrite !Forall_app, !Forall_map, !Forall_flat_map, !Forall_forall.
    intros U (X1 & X2) (Y1 & Y2) (o & i & c & l & cs & -> & A0 & A1 & A2 & A3 & A4 & A5 & A6 & A7 & A8 & A9 & A10 & A11 & A12 & A13 & A14 & A15)
      (o' & i' & c' & l' & cs' & E & B0 & B1 & B2 & B3 & B4 & B5 & B6 & B7 & B8 & B9 & B10 & B11 & B12 & B13 & B14 & B15). injection E as <-.
    apply unique_obj in U. assert (Uo : uniq_obj o) by exact U. destruct U as (N & _).
    assert (JObj i = JObj i') as [= <-] by (eapply has_unique; eauto). assert (Ui : uniq_obj i) by (apply has_names in A1; auto; now apply unique_obj in A1).
    assert (JObj cs = JObj cs') as [= <-] by (eapply has_unique; eauto). assert (Us : uniq_obj cs) by (apply has_names in A14; auto; now apply unique_obj in A14).
    assert (Ni := proj1 Ui).
    assert (JObj c = JObj c') as [= <-] by (eapply has_unique; [exact Ni| |]; eauto). assert (Uc : uniq_obj c) by (apply has_names in A5; auto; now apply unique_obj in A5).
    assert (JObj l = JObj l') as [= <-] by (eapply has_unique; [exact Ni| |]; eauto). assert (Ul : uniq_obj l) by (apply has_names in A9; auto; now apply unique_obj in A9).
    assert (Nc := proj1 Uc). assert (Nl := proj1 Ul).
    destruct d as [? ? ? ((? & ?) & ?) (? & ?) ? ? ?], d' as [? ? ? ((? & ?) & ?) (? & ?) ? ? ?]. cbn in *.
    f_equal.
    all: try (eapply text_one; [exact Ni| |]; eassumption).
    - assert (H := has_unique _ _ _ _ Ni A2 B2). congruence.
    - assert (H := has_unique _ _ _ _ Ni A4 B4). congruence.
    - f_equal; [f_equal|]; eapply text_one; [exact Nc| | |exact Nc| | |exact Nc| |]; eassumption.
    - f_equal; [|eapply text_one; [exact Nl| |]; eassumption]. assert (H := has_unique _ _ _ _ Nl A10 B10). congruence.
    - eapply list_one; [exact Uo| |eassumption|eassumption]. intros w a a' Uw _ _ (q & -> & Sa) (q' & [= <-] & Sb). apply unique_obj in Uw.
      eapply text_one; [exact (proj1 Uw)| |]; eassumption.
    - eapply map_one; [exact Uo| |eassumption|eassumption]. intros w a a' Uw I I'. apply path_one; auto; [exact (X1 _ I)|exact (Y1 _ I')].
    - eapply map_one; [exact Us| |eassumption|eassumption]. intros w a a' Uw I I'. apply schema_one; auto.
  Qed.
End Reader.
