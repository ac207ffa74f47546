(** Options and configuration. *)
From Coq Require Import List String Ascii Bool ZArith Arith Lia.
From Verif Require Import BaseStr BaseMap M_Types M_Collect M_OpenAPI M_Parse M_Clean M_FS M_Service M_Options S_Options P_Parse.
Import ListNotations.
Local Open Scope string_scope.

Lemma values_app {A B} (f : A -> option B) l l' : values f (l ++ l') = (values f l ++ values f l')%list.
Proof. apply flat_map_app. Qed.
Lemma last_snoc {A} (l : list A) x d : last (l ++ [x]) d = x.
Proof. apply last_last. Qed.
Lemma values_snoc {A B} (f : A -> option B) l x :
  values f (l ++ [x]) = (values f l ++ match f x with Some v => [v] | None => [] end)%list.
Proof. rewrite values_app. cbn. now rewrite app_nil_r. Qed.
Lemma last_values {A B} (f : A -> option B) l x d :
  last (values f (l ++ [x])) d = match f x with Some v => v | None => last (values f l) d end.
Proof. rewrite values_snoc. destruct (f x); [apply last_last|now rewrite app_nil_r]. Qed.

Lemma values_filter {A B} (f : A -> option B) (t : A -> bool) l :
  (forall x, t x = false -> f x = None) -> values f l = values f (filter t l).
Proof.
  intros H. induction l as [|x l IH]; auto. cbn [filter]. destruct (t x) eqn:E; cbn [values flat_map]; fold (values f l).
  - f_equal. exact IH.
  - now rewrite (H x E).
Qed.

Lemma existsb_filter {A} (f t : A -> bool) l : (forall x, f x = true -> t x = true) -> existsb f (filter t l) = existsb f l.
Proof.
  intros H. induction l as [|x l IH]; auto. cbn. destruct (t x) eqn:E; cbn; rewrite IH; auto.
  destruct (f x) eqn:F; auto. rewrite (H x F) in E. discriminate.
Qed.

(** ** Options *)

Lemma NewWith_snoc l o : NewWith (l ++ [o]) = applyOption (NewWith l) o.
Proof. unfold NewWith. now rewrite fold_left_app. Qed.

Lemma fold_sorted m m0 :
  msorted m0 -> msorted (fold_left (fun (acc : list (string * TypeFormat)) kv => minsert (fst kv) (snd kv) acc) m m0).
Proof. revert m0. induction m as [|[k v] m IH]; intros m0 H; auto. cbn [fold_left]. now apply IH, minsert_sorted. Qed.
Lemma fold_lookup m m0 k : NoDup (map fst m) ->
  mlookup k (fold_left (fun (acc : list (string * TypeFormat)) kv => minsert (fst kv) (snd kv) acc) m m0) =
  match mlookup k m with Some v => Some v | None => mlookup k m0 end.
Proof.
  revert m0. induction m as [|[k' v] m IH]; intros m0 N; auto. cbn [fold_left mlookup fst snd]. inversion N as [|? ? NI N']; subst.
  rewrite IH, mlookup_insert by auto. destruct (String.eqb k' k) eqn:E; auto.
  apply String.eqb_eq in E; subst. apply (proj2 (mlookup_None k m)) in NI. now rewrite NI.
Qed.

Definition last_opt {A} (l : list A) : option A := last (map Some l) None.
Lemma last_opt_snoc {A} (l : list A) x : last_opt (l ++ [x]) = Some x.
Proof. unfold last_opt. rewrite map_app. apply last_last. Qed.

Record outcome_of (l : list opt) (x : Service * Logger) : Prop := {
  oo_inputs : sv_inputs (fst x) = values gives_input l;
  oo_outputs : sv_outputs (fst x) = values gives_output l;
  oo_config : sv_config (fst x) = last (values gives_config l) None;
  oo_workDir : sv_workDir (fst x) = last (values gives_workDir l) "";
  oo_cachePath : sv_cachePath (fst x) = last (values gives_cachePath l) "";
  oo_mode : sv_cliMode (fst x) = last (values gives_mode l) CLIModeNone;
  oo_cache : sv_cacheEnabled (fst x) = existsb enables_cache l;
  oo_deny : sv_denyList (fst x) = values gives_deny l;
  oo_funcs : sv_customFuncs (fst x) = values gives_func l;
  oo_types : forall k, mlookup k (sv_customTypes (fst x)) = last_opt (values (gives_type k) l);
  oo_sorted : msorted (sv_customTypes (fst x));
  oo_logger : lg_to (snd x) = last (values gives_logger l) 0;
  oo_level : lg_level (snd x) = last (values gives_level l) "info";
  oo_rest : sv_routes (fst x) = [] /\ sv_components (fst x) = [] /\ sv_tempMain (fst x) = "" /\ sv_memo (fst x) = None }.

Lemma new_outcome l : Forall a_map l -> outcome_of l (NewWith l).
Proof.
  induction l as [|o l IH] using rev_ind; intros F.
  { constructor; try reflexivity; try apply msorted_nil; repeat split. }
  apply Forall_app in F as (F & M). inversion M as [|? ? MO _]; subst. specialize (IH F).
  rewrite NewWith_snoc. destruct (NewWith l) as [s lg]. destruct IH. cbn [fst snd] in *.
  constructor; intros; rewrite ?last_values, ?values_snoc, ?existsb_app; unfold last_opt in *;
    try (rewrite ?map_app; destruct o; cbn; rewrite ?app_nil_r, ?orb_false_r, ?orb_true_r; solve [auto|f_equal; auto]).
  - destruct o; cbn -[minsert]; rewrite ?app_nil_r; auto.
    + rewrite fold_lookup by exact MO. rewrite oo_types0. destruct (mlookup k m); [rewrite map_app; cbn [map]; now rewrite last_last|now rewrite app_nil_r].
    + rewrite mlookup_insert, oo_types0. destruct (String.eqb _ _); [rewrite map_app; cbn [map]; now rewrite last_last|now rewrite app_nil_r].
  - destruct o; cbn -[minsert]; auto; [now apply fold_sorted|now apply minsert_sorted].
  - destruct o; auto. Qed.

(** The service and logger are determined by that. *)
Lemma outcome_unique l l' x x' :
  outcome_of l x -> outcome_of l' x' -> (forall t, filter (about t) l = filter (about t) l') -> x = x'.
Proof.
  intros H H' F.
  assert (V : forall B (f : opt -> option B) t, (forall o, about t o = false -> f o = None) -> values f l = values f l').
  { intros B f t A. rewrite (values_filter f (about t) l), (values_filter f (about t) l') by auto. now rewrite F. }
  destruct x as [s lg], x' as [s' lg']. destruct H, H'. cbn [fst snd] in *.
  assert (VI : values gives_input l = values gives_input l') by (apply (V _ _ TInputs); intros []; cbn; easy).
  assert (VO : values gives_output l = values gives_output l') by (apply (V _ _ TOutputs); intros []; cbn; easy).
  assert (VC : values gives_config l = values gives_config l') by (apply (V _ _ TConfig); intros []; cbn; easy).
  assert (VW : values gives_workDir l = values gives_workDir l') by (apply (V _ _ TWorkDir); intros []; cbn; easy).
  assert (VP : values gives_cachePath l = values gives_cachePath l') by (apply (V _ _ TCachePath); intros []; cbn; easy).
  assert (VM : values gives_mode l = values gives_mode l') by (apply (V _ _ TMode); intros []; cbn; easy).
  assert (VD : values gives_deny l = values gives_deny l') by (apply (V _ _ TDenyList); intros []; cbn; easy).
  assert (VF : values gives_func l = values gives_func l') by (apply (V _ _ TFuncs); intros []; cbn; easy).
  assert (VT : forall k, values (gives_type k) l = values (gives_type k) l').
  { intros k. apply (V _ _ (TType k)). intros o. cbn [about]. now destruct (gives_type k o). }
  assert (VL : values gives_logger l = values gives_logger l') by (apply (V _ _ TLog); intros []; cbn; easy).
  assert (VV : values gives_level l = values gives_level l') by (apply (V _ _ TLog); intros []; cbn; easy).
  assert (EC : existsb enables_cache l = existsb enables_cache l').
  { assert (S : forall l0, existsb enables_cache l0 =
      existsb (fun o => match o with OCLI => true | _ => false end) l0 ||
      (existsb (about TCaching) l0 || existsb (about TCachePath) l0)).
    { induction l0 as [|o l0 IH]; auto. cbn [existsb]. rewrite IH. destruct o; cbn; rewrite ?orb_true_r; auto. }
    assert (X : forall t (f : opt -> bool), (forall o, f o = true -> about t o = true) -> existsb f l = existsb f l').
    { intros t f A. rewrite <- (existsb_filter f (about t) l), <- (existsb_filter f (about t) l') by auto. now rewrite F. }
    rewrite !S. rewrite (X TMode (fun o => match o with OCLI => true | _ => false end)) by (intros []; easy).
    rewrite (X TCaching (about TCaching)) by auto. now rewrite (X TCachePath (about TCachePath)) by auto. }
  assert (ET : sv_customTypes s = sv_customTypes s').
  { apply smap_ext; auto. intros k. now rewrite oo_types0, oo_types1, VT. }
  f_equal.
  - destruct s, s'; cbn in *. destruct oo_rest0 as (-> & -> & -> & ->), oo_rest1 as (-> & -> & -> & ->). congruence.
  - destruct lg, lg'; cbn in *. congruence.
Qed.

(** ** Configurations *)

Lemma validate_again c : Validate (fst (Validate c)) = Validate c.
Proof.
  destruct c as [t d v ct li se h b p]. unfold Validate. cbn.
  destruct (String.eqb h "") eqn:H, (Z.eqb p 0) eqn:P, (String.eqb b "") eqn:B;
    repeat (cbn; rewrite ?H, ?P, ?B); reflexivity.
Qed.

Lemma deref_set_other n c p m : n <> p -> deref p (set_nth n c m) = deref p m.
Proof.
  intros N. unfold deref. assert (H := nth_set_other n p c m N).
  destruct (nth_error (set_nth n c m) p) eqn:E.
  - rewrite (nth_error_nth _ _ _ E). symmetry in H. now rewrite (nth_error_nth _ _ _ H).
  - apply nth_error_None in E. symmetry in H. apply nth_error_None in H. now rewrite !nth_overflow.
Qed.
Lemma deref_set_same c p m : p < List.length m -> deref p (set_nth p c m) = c.
Proof.
  intros L. unfold deref. destruct (nth_error m p) eqn:E; [|apply nth_error_None in E; lia].
  apply (nth_error_nth (set_nth p c m)). now apply nth_set_nth with (y := c0).
Qed.

Lemma doCall_other c p m : ~ call_on p c -> p < List.length m -> deref p (fst (doCall c m)) = deref p m.
Proof.
  intros N L. destruct c; cbn in *.
  - unfold deref. now rewrite app_nth1.
  - apply deref_set_other. auto.
  - destruct (Validate _). apply deref_set_other. auto.
  - destruct (Validate _). apply deref_set_other. auto.
Qed.
Lemma doCall_length c m : List.length m <= List.length (fst (doCall c m)).
Proof.
  destruct c; cbn; rewrite ?app_length, ?set_nth_length; auto; try lia; destruct (Validate _); cbn; rewrite set_nth_length; auto.
Qed.

Lemma doCalls_length cs m : List.length m <= List.length (doCalls cs m).
Proof.
  revert m. induction cs as [|c cs IH]; intros m; auto. cbn. etransitivity; [apply (doCall_length c)|apply IH].
Qed.
Lemma doCalls_other cs p m : Forall (fun c => ~ call_on p c) cs -> p < List.length m -> deref p (doCalls cs m) = deref p m.
Proof.
  intros F. revert m. induction F as [|c cs N F IH]; intros m L; auto. cbn [doCalls fold_left].
  fold (doCalls cs (fst (doCall c m))). rewrite IH; [now apply doCall_other|]. eapply Nat.lt_le_trans; [exact L|apply doCall_length].
Qed.

(** The cell of a builder, between calls: as described, defaults perhaps not yet filled in. *)
Definition between (l : list setter) (c : Config) : Prop :=
  c_title c = last (values sets_title l) "" /\ c_description c = last (values sets_description l) "" /\
  c_version c = last (values sets_version l) "" /\ c_contact c = last (values sets_contact l) ("", "", "") /\
  c_license c = last (values sets_license l) ("", "") /\ c_secure c = last (values sets_secure l) false /\
  or_default "localhost" (c_host c) = or_default "localhost" (last (values sets_host l) "") /\
  or_default "/" (c_basePath c) = or_default "/" (last (values sets_basePath l) "") /\
  c_port c = last (values sets_port l) 0%Z.

Lemma between_set l c x : between l c -> between (l ++ [x]) (applySetter x c).
Proof.
  unfold between. intros (H1 & H2 & H3 & H4 & H5 & H6 & H7 & H8 & H9). rewrite !last_values. destruct x; cbn; repeat split; auto.
Qed.
Lemma or_default_twice d v : or_default d (or_default d v) = or_default d v.
Proof. unfold or_default. destruct (String.eqb v "") eqn:E; [destruct (String.eqb d ""); auto|now rewrite E]. Qed.
Lemma validate_spec c :
  let c' := fst (Validate c) in
  (c_title c' = c_title c /\ c_description c' = c_description c /\ c_version c' = c_version c /\ c_contact c' = c_contact c /\
   c_license c' = c_license c /\ c_secure c' = c_secure c /\ c_port c' = c_port c /\ c_host c' = or_default "localhost" (c_host c) /\
   or_default "/" (c_basePath c') = or_default "/" (c_basePath c)) /\
  (snd (Validate c) = true <-> c_port c = 0%Z) /\
  (snd (Validate c) = false -> c_basePath c' = or_default "/" (c_basePath c)).
Proof.
  destruct c as [t d v ct li se h b p]. unfold Validate, or_default. cbn.
  destruct (String.eqb h "") eqn:H, (Z.eqb p 0) eqn:P, (String.eqb b "") eqn:B; repeat (cbn; rewrite ?H, ?P, ?B);
    (apply Z.eqb_eq in P || apply Z.eqb_neq in P); repeat split; auto; try discriminate; try (intros; exfalso; auto; fail);
    intros; try apply String.eqb_eq in B; congruence.
Qed.
Lemma between_validate l c : between l c -> between l (fst (Validate c)).
Proof.
  destruct (validate_spec c) as ((V1 & V2 & V3 & V4 & V5 & V6 & V7 & V8 & V9) & _).
  unfold between. rewrite V1, V2, V3, V4, V5, V6, V7, V8, V9, or_default_twice. auto.
Qed.

Lemma settings_snoc b cs c : settings b (cs ++ [c]) =
  (settings b cs ++ match c with CSet b' x => if Nat.eqb b' b then [x] else [] | _ => [] end)%list.
Proof. unfold settings. rewrite values_snoc. destruct c as [|b' x| |]; auto. now destruct (Nat.eqb b' b). Qed.
Lemma doCalls_snoc cs c m : doCalls (cs ++ [c]) m = fst (doCall c (doCalls cs m)).
Proof. unfold doCalls. now rewrite fold_left_app. Qed.

Lemma builder_cell cs m : between (settings (List.length m) cs) (deref (List.length m) (doCalls (CNew :: cs) m)).
Proof.
  set (b := List.length m). change (CNew :: cs) with ([CNew] ++ cs)%list.
  induction cs as [|c cs IH] using rev_ind.
  { cbn. unfold deref. rewrite app_nth2 by auto. unfold b. rewrite Nat.sub_diag. repeat split. }
  rewrite app_assoc, doCalls_snoc, settings_snoc.
  assert (L : b < List.length (doCalls ([CNew] ++ cs) m)).
  { assert (X := doCalls_length cs (m ++ [zeroConfig])). rewrite app_length in X. cbn in X |- *. unfold doCalls in X. unfold b. lia. }
  set (m' := doCalls ([CNew] ++ cs) m) in *. destruct c as [|b' x|b'|p]; cbn [doCall fst].
  - rewrite app_nil_r. unfold deref. rewrite app_nth1 by auto. exact IH.
  - destruct (Nat.eqb b' b) eqn:E.
    + apply Nat.eqb_eq in E; subst b'. rewrite deref_set_same by auto. now apply between_set.
    + apply Nat.eqb_neq in E. rewrite app_nil_r, deref_set_other by auto. exact IH.
  - rewrite app_nil_r. assert (V := between_validate _ _ IH). destruct (Nat.eq_dec b' b) as [->|N].
    + destruct (Validate (deref b m')) as [c' f]. cbn [fst] in *. now rewrite deref_set_same by auto.
    + destruct (Validate (deref b' m')) as [c' f]. cbn [fst]. now rewrite deref_set_other by auto.
  - rewrite app_nil_r. assert (V := between_validate _ _ IH). destruct (Nat.eq_dec p b) as [->|N].
    + destruct (Validate (deref b m')) as [c' f]. cbn [fst] in *. now rewrite deref_set_same by auto.
    + destruct (Validate (deref p m')) as [c' f]. cbn [fst]. now rewrite deref_set_other by auto.
Qed.
