(** Proofs about cleaning. *)
From Coq Require Import List String Ascii Bool ZArith Arith Lia.
From Verif Require Import BaseStr BaseMap M_Types M_Clean S_Clean.
Import ListNotations.
Local Open Scope string_scope.

Lemma clean_package_reads temp p : reads_as temp p (cleanPackage temp p).
Proof.
  unfold cleanPackage. destruct (String.eqb p temp) eqn:E.
  - apply String.eqb_eq in E as ->. constructor.
  - constructor. now apply String.eqb_neq.
Qed.

Lemma clean_package_not temp p : temp <> "main" -> cleanPackage temp p <> temp.
Proof.
  unfold cleanPackage. destruct (String.eqb p temp) eqn:E; [congruence|]. intros _. now apply String.eqb_neq.
Qed.

Lemma clean_package_again temp p : temp <> "main" -> cleanPackage temp (cleanPackage temp p) = cleanPackage temp p.
Proof.
  intros H. unfold cleanPackage at 1. rewrite (proj2 (String.eqb_neq _ _) (clean_package_not temp p H)). reflexivity.
Qed.

(** The qualified name tells package and name apart. *)
Lemma qualified_duration pkg name :
  pkg ++ "." ++ name = "time.Duration" -> pkg = "time" /\ name = "Duration".
Proof.
  destruct pkg as [|a [|b [|c [|d [|e pkg]]]]]; cbn; intros H; try discriminate.
  - injection H as -> -> -> -> ->. auto.
  - exfalso. injection H as _ _ _ _ _ H.
    assert (L : forall s t, has_char "." (s ++ String "." t) = true)
      by (intros s t; rewrite has_char_append; cbn; now rewrite orb_true_r).
    pose proof (L pkg name) as L1. rewrite H in L1. discriminate.
Qed.

Lemma qualified_error pkg name : pkg ++ "." ++ name <> "error".
Proof.
  intros H. assert (L : has_char "." (pkg ++ "." ++ name) = true)
    by (rewrite has_char_append; cbn; now rewrite orb_true_r).
  rewrite H in L. discriminate.
Qed.

Lemma substitute_for_spec f t : f_name f <> "time.Duration" ->
  (substituteFor (f_package f) (f_name f) = Some t <-> substituted f t).
Proof.
  intros Hn. unfold substituteFor, substituteTypes, mlookup.
  destruct (String.eqb (f_package f) "") eqn:Ep; cbn [negb].
  - apply String.eqb_eq in Ep. rewrite (proj2 (String.eqb_neq _ _) (not_eq_sym Hn)).
    destruct (String.eqb "error" (f_name f)) eqn:E.
    + apply String.eqb_eq in E. split.
      * injection 1 as <-. now apply su_error.
      * destruct 1; congruence.
    + split; [discriminate|]. destruct 1; [congruence|]. apply String.eqb_neq in E. congruence.
  - apply String.eqb_neq in Ep.
    destruct (String.eqb "time.Duration" (f_package f ++ "." ++ f_name f)) eqn:E.
    + apply String.eqb_eq in E. symmetry in E. apply qualified_duration in E as [E1 E2]. split.
      * injection 1 as <-. now apply su_duration.
      * destruct 1; congruence.
    + rewrite (proj2 (String.eqb_neq _ _) (not_eq_sym (qualified_error _ _))).
      split; [discriminate|]. destruct 1 as [f H1 H2|]; [|congruence].
      rewrite H1, H2 in E. discriminate.
Qed.

Lemma clean_field_eq temp f :
  cleanField temp f =
  match substituteFor (f_package f) (f_name f) with
  | Some t =>
      mkField (cleanPackage temp (f_package f)) t (f_name f) (f_enum f) (f_isRequired f) (f_isEmbedded f)
        "" (f_arrayType f) (f_arrayLength f) (cleanPackage temp (f_mapKeyPackage f)) (f_mapKeyType f) ""
        [] (f_bindingTags f) (f_validationTags f) (f_doc f)
  | None =>
      mkField (cleanPackage temp (f_package f)) (f_type f) (f_name f) (f_enum f) (f_isRequired f) (f_isEmbedded f)
        (f_sliceType f) (f_arrayType f) (f_arrayLength f) (cleanPackage temp (f_mapKeyPackage f)) (f_mapKeyType f)
        (f_mapValueType f) (map (fun kf => (fst kf, cleanField temp (snd kf))) (f_structFields f))
        (f_bindingTags f) (f_validationTags f) (f_doc f)
  end.
Proof. destruct f. reflexivity. Qed.

Lemma clean_field_package temp f : f_package (cleanField temp f) = cleanPackage temp (f_package f).
Proof. rewrite clean_field_eq. destruct (substituteFor _ _); reflexivity. Qed.
Lemma clean_field_key_package temp f : f_mapKeyPackage (cleanField temp f) = cleanPackage temp (f_mapKeyPackage f).
Proof. rewrite clean_field_eq. destruct (substituteFor _ _); reflexivity. Qed.
Lemma clean_field_name temp f : f_name (cleanField temp f) = f_name f.
Proof. rewrite clean_field_eq. destruct (substituteFor _ _); reflexivity. Qed.

Lemma clean_reaches temp f p g' : reaches (cleanField temp f) p g' ->
  exists g, reaches f p g /\ g' = cleanField temp g.
Proof.
  revert f g'. induction p as [|k p IH]; intros f g' H; inversion H; subst.
  - exists f. split; [constructor|reflexivity].
  - rewrite clean_field_eq in *. destruct (substituteFor _ _); cbn in *; [tauto|].
    match goal with X : In (k, _) (map _ _) |- _ => apply in_map_iff in X as ([k' g0] & E & Hin) end.
    injection E as -> <-.
    destruct (IH g0 g') as (g1 & H1 & ->); [assumption|].
    exists g1. split; [econstructor; eauto|reflexivity].
Qed.

Lemma clean_no_mention temp f : temp <> "main" -> ~ mentions temp (cleanField temp f).
Proof.
  intros Hm (p & g' & H & E). apply clean_reaches in H as (g & _ & ->).
  rewrite clean_field_package, clean_field_key_package in E.
  destruct E as [E|E]; exact (clean_package_not temp _ Hm E).
Qed.

Lemma substitute_for_clean temp pkg name : temp <> "time" -> temp <> "" -> temp <> "main" ->
  substituteFor (cleanPackage temp pkg) name = substituteFor pkg name \/
  (pkg = temp /\ substituteFor (cleanPackage temp pkg) name = None /\ substituteFor pkg name = None).
Proof.
  intros Ht He Hm. unfold cleanPackage. destruct (String.eqb pkg temp) eqn:E; auto.
  right. apply String.eqb_eq in E as ->. split; [reflexivity|].
  assert (X : forall q, q <> "" -> q <> "time" -> substituteFor q name = None).
  { intros q Hq1 Hq2. unfold substituteFor, substituteTypes, mlookup.
    rewrite (proj2 (String.eqb_neq _ _) Hq1). cbn [negb].
    destruct (String.eqb "time.Duration" (q ++ "." ++ name)) eqn:E1.
    { apply String.eqb_eq in E1. symmetry in E1. apply qualified_duration in E1 as [-> _]. congruence. }
    now rewrite (proj2 (String.eqb_neq _ _) (not_eq_sym (qualified_error _ _))). }
  split; apply X; auto; discriminate.
Qed.

Lemma substitute_for_again temp pkg name : temp <> "time" -> temp <> "" -> temp <> "main" ->
  substituteFor (cleanPackage temp pkg) name = substituteFor pkg name.
Proof. intros A B C. destruct (substitute_for_clean temp pkg name A B C) as [H|(_ & -> & ->)]; auto. Qed.

Lemma map_snd_ext {A} (g h : A -> A) (l : list (string * A)) : Forall (fun kv => g (snd kv) = h (snd kv)) l ->
  map (fun kv => (fst kv, g (snd kv))) l = map (fun kv => (fst kv, h (snd kv))) l.
Proof. induction 1 as [|kv l E _ IH]; simpl; congruence. Qed.

Lemma clean_field_again temp f : temp <> "time" -> temp <> "" -> temp <> "main" ->
  cleanField temp (cleanField temp f) = cleanField temp f.
Proof.
  intros A B C. induction f as [f IH] using Field_ind'.
  rewrite (clean_field_eq temp (cleanField temp f)), clean_field_package, clean_field_name, clean_field_key_package.
  rewrite (substitute_for_again temp _ _ A B C). rewrite (clean_field_eq temp f).
  rewrite !(clean_package_again temp _ C).
  destruct (substituteFor (f_package f) (f_name f)) as [t|]; cbn; [reflexivity|].
  f_equal. rewrite map_map. cbn [fst snd].
  apply (map_snd_ext (fun x => cleanField temp (cleanField temp x)) (cleanField temp)). exact IH.
Qed.

(** A field that mentions neither the temporary package nor a substituted type stays as it is. *)
Lemma clean_field_same temp f : ~ mentions temp f ->
  (forall p g t, reaches f p g -> ~ substituted g t) -> identifier_names f -> cleanField temp f = f.
Proof.
  induction f as [f IH] using Field_ind'. intros Hm Hs Hi. rewrite clean_field_eq.
  assert (Hp : cleanPackage temp (f_package f) = f_package f).
  { unfold cleanPackage. destruct (String.eqb (f_package f) temp) eqn:E; auto. apply String.eqb_eq in E.
    exfalso. apply Hm. exists [], f. split; [constructor|auto]. }
  assert (Hk : cleanPackage temp (f_mapKeyPackage f) = f_mapKeyPackage f).
  { unfold cleanPackage. destruct (String.eqb (f_mapKeyPackage f) temp) eqn:E; auto. apply String.eqb_eq in E.
    exfalso. apply Hm. exists [], f. split; [constructor|auto]. }
  rewrite Hp, Hk. destruct (substituteFor (f_package f) (f_name f)) as [t|] eqn:E.
  { exfalso. apply (Hs [] f t); [constructor|]. apply substitute_for_spec; auto. apply (Hi [] f). constructor. }
  replace (map (fun kf => (fst kf, cleanField temp (snd kf))) (f_structFields f)) with (f_structFields f).
  { destruct f; reflexivity. }
  rewrite <- (map_id (f_structFields f)) at 1. apply map_ext_in. intros [k g] Hin. cbn. f_equal. symmetry.
  rewrite Forall_forall in IH. apply (IH (k, g) Hin).
  - intros (p & h & H & X). apply Hm. exists (k :: p), h. split; auto. econstructor; eauto.
  - intros p h t H. apply (Hs (k :: p)). econstructor; eauto.
  - intros p h H. apply (Hi (k :: p)). econstructor; eauto.
Qed.

(** Exactly which fields a cleaned field has, and what they are. *)
Lemma clean_field_forward temp f p g' : identifier_names f -> reaches (cleanField temp f) p g' ->
  exists g, reaches f p g /\
    reads_as temp (f_package g) (f_package g') /\ reads_as temp (f_mapKeyPackage g) (f_mapKeyPackage g') /\
    ((exists t, substituted g t /\ f_type g' = t /\ f_structFields g' = [] /\ f_sliceType g' = "" /\ f_mapValueType g' = "" /\
                f_enum g' = f_enum g /\ f_name g' = f_name g) \/
     ((forall t, ~ substituted g t) /\ same_but_packages temp g g')).
Proof.
  intros Hi H. apply clean_reaches in H as (g & Hg & ->). exists g. split; auto.
  pose proof (Hi _ _ Hg) as Hn. rewrite clean_field_package, clean_field_key_package.
  split; [apply clean_package_reads|]. split; [apply clean_package_reads|].
  destruct (substituteFor (f_package g) (f_name g)) as [t|] eqn:E.
  - left. exists t. split; [now apply substitute_for_spec|]. rewrite clean_field_eq, E. auto 7.
  - right. split.
    + intros t Ht. apply substitute_for_spec in Ht; congruence.
    + unfold same_but_packages. rewrite clean_field_package, clean_field_key_package.
      split; [apply clean_package_reads|]. split; [apply clean_package_reads|].
      rewrite clean_field_eq, E. split; [reflexivity|]. cbn. rewrite map_map. reflexivity.
Qed.

(** ... and every field outside a substituted type is still there. *)
Lemma clean_field_backward temp f p g : identifier_names f -> reaches f p g ->
  (forall p1 p2 h t, p = (p1 ++ p2)%list -> p2 <> [] -> reaches f p1 h -> ~ substituted h t) ->
  reaches (cleanField temp f) p (cleanField temp g).
Proof.
  intros Hi H. induction H as [f|f k g p h Hin H IH]; intros Hs; [constructor|].
  apply re_in with (g := cleanField temp g).
  - rewrite (clean_field_eq temp f). destruct (substituteFor _ _) as [t|] eqn:E.
    + exfalso. apply (Hs [] (k :: p) f t); [reflexivity|discriminate|constructor|].
      exact (proj1 (substitute_for_spec f t (Hi [] f (re_here f))) E).
    + cbn. apply in_map_iff. exists (k, g). auto.
  - apply IH.
    + intros q x Hx. apply (Hi (k :: q) x). econstructor; eauto.
    + intros p1 p2 x t -> Hp2 Hx. apply (Hs (k :: p1) p2); auto. econstructor; eauto.
Qed.
