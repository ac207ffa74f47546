From Coq Require Import List String Ascii Bool ZArith Arith Lia Permutation Sorted.
From Verif Require Import BaseStr BaseMap M_Types M_Tags S_Tags P_Tags S_Collect M_OpenAPI S_Names.
Import ListNotations.
Local Open Scope string_scope.

Lemma package_name_last_elem pkg : getPackageName pkg = last_elem pkg.
Proof.
  unfold getPackageName, last_elem, elems. rewrite after_last_split.
  pose proof (split_not_nil "/" pkg) as H. destruct (exists_last H) as (l & x & ->).
  rewrite last_last, rev_app_distr. reflexivity.
Qed.

(** ** Groups *)
Definition group_of (components : list Field) (n : string) : list Field :=
  filter (fun c => String.eqb (getPackageName (f_package c)) n) components.

Lemma add_to_group_lookup n c g x :
  mlookup x (addToGroup n c g) =
  if String.eqb n x then Some (match mlookup n g with Some l => (l ++ [c])%list | None => [c] end)
  else mlookup x g.
Proof.
  induction g as [|[m cs] g IH]; simpl.
  - destruct (String.eqb n x); reflexivity.
  - destruct (String.eqb m n) eqn:E; simpl.
    + apply String.eqb_eq in E as ->. destruct (String.eqb n x); auto.
    + destruct (String.eqb m x) eqn:Ex.
      * apply String.eqb_eq in Ex as ->. destruct (String.eqb n x) eqn:En; auto.
        apply String.eqb_eq in En as ->. rewrite String.eqb_refl in E. discriminate.
      * rewrite IH. auto.
Qed.

Lemma add_to_group_keys n c g x :
  In x (map fst (addToGroup n c g)) <-> x = n \/ In x (map fst g).
Proof.
  induction g as [|[m cs] g IH]; simpl; [intuition|].
  destruct (String.eqb m n) eqn:E; simpl.
  - apply String.eqb_eq in E as ->. intuition.
  - rewrite IH. intuition.
Qed.

Lemma add_to_group_nodup n c g : NoDup (map fst g) -> NoDup (map fst (addToGroup n c g)).
Proof.
  induction g as [|[m cs] g IH]; simpl; intros H; [repeat constructor; auto|].
  inversion H; subst. destruct (String.eqb m n) eqn:E; simpl; constructor; auto.
  rewrite add_to_group_keys. intros [->|Hin]; auto. rewrite String.eqb_refl in E. discriminate.
Qed.

Lemma group_components_inv components :
  forall g done,
    NoDup (map fst g) ->
    (forall n, mlookup n g = match group_of done n with [] => None | l => Some l end) ->
    let g' := fold_left (fun g c => addToGroup (getPackageName (f_package c)) c g) components g in
    NoDup (map fst g') /\
    (forall n, mlookup n g' = match group_of (done ++ components)%list n with [] => None | l => Some l end).
Proof.
  induction components as [|c cs IH]; intros g done HN Hl; simpl.
  - rewrite app_nil_r. auto.
  - specialize (IH (addToGroup (getPackageName (f_package c)) c g) (done ++ [c])%list
                  (add_to_group_nodup _ _ _ HN)).
    rewrite <- app_assoc in IH. simpl in IH. apply IH. intros n.
    rewrite add_to_group_lookup. unfold group_of. rewrite filter_app. simpl.
    destruct (String.eqb (getPackageName (f_package c)) n) eqn:E.
    + apply String.eqb_eq in E as <-. rewrite Hl. unfold group_of.
      destruct (filter _ done); simpl; auto.
    + rewrite app_nil_r. apply Hl.
Qed.

Lemma group_components_spec components :
  NoDup (map fst (groupComponents components)) /\
  (forall n, mlookup n (groupComponents components) =
             match group_of components n with [] => None | l => Some l end).
Proof. apply (group_components_inv components [] []); [constructor|reflexivity]. Qed.

Lemma group_components_in components n cs :
  In (n, cs) (groupComponents components) <-> cs = group_of components n /\ cs <> [].
Proof.
  destruct (group_components_spec components) as [HN Hl]. split.
  - intros H. apply In_mlookup in H; auto. rewrite Hl in H.
    destruct (group_of components n); [discriminate|]. injection H as <-. split; congruence.
  - intros [-> Hne]. apply mlookup_In. rewrite Hl. destruct (group_of components n); congruence.
Qed.

Lemma group_of_in components n c :
  In c (group_of components n) <-> In c components /\ getPackageName (f_package c) = n.
Proof. unfold group_of. rewrite filter_In, String.eqb_eq. tauto. Qed.

(** ** Tags of a component, whatever the iteration order *)
Lemma met_reordered o site fields : valid_orders o -> reordered fields (met o site fields).
Proof.
  intros (_ & Hf & Ht & _). exists (o_fields o site _ fields). split; [apply Hf|].
  unfold met. induction (o_fields o site _ fields) as [|[k f] l IH]; simpl; constructor; auto.
  split; [reflexivity|]. simpl. apply Ht.
Qed.

Definition tags_met (o : Orders) (c : Field) : list string * bool :=
  ExtractBindingTags (met o ["names"; f_package c; f_name c] (f_structFields c)).

Lemma tags_met_in o c t :
  valid_orders o -> nonzero_fields (f_structFields c) ->
  (In t (fst (tags_met o c)) <-> registered c t).
Proof.
  intros Ho Hz. unfold tags_met.
  destruct (extract_reordered _ _ Hz (met_reordered o ["names"; f_package c; f_name c] _ Ho)) as [HP _].
  split.
  - intros H. apply (Permutation_in _ (Permutation_sym HP)) in H.
    destruct (has_tag_dec (f_structFields c)) as [He|Hn].
    + left. now apply extract_types in H.
    + right. split; auto. now rewrite extract_no_types in H.
  - intros H. apply (Permutation_in _ HP). destruct H as [H|[Hn H]].
    + apply extract_types; eauto.
    + now rewrite extract_no_types.
Qed.

Definition verdict (c : Field) : bool := snd (ExtractBindingTags (f_structFields c)).

Lemma tags_met_unique o c :
  valid_orders o -> nonzero_fields (f_structFields c) -> snd (tags_met o c) = verdict c.
Proof.
  intros Ho Hz. symmetry.
  apply (extract_reordered _ _ Hz (met_reordered o ["names"; f_package c; f_name c] _ Ho)).
Qed.

Lemma verdict_spec c :
  nonzero_fields (f_structFields c) -> (verdict c = true <-> bindings_differ (f_structFields c)).
Proof. apply extract_unique. Qed.

Lemma registered_ex c : exists t, registered c t.
Proof.
  destruct (has_tag_dec (f_structFields c)) as [[t Ht]|Hn].
  - exists t. left; auto.
  - exists JSONBindingTag. right. split; auto. simpl; tauto.
Qed.

(** ** The names given, as a list of assignments *)
Definition name_at (s : nat) (uniq : bool) (t : string) (c : Field) : string :=
  join "." (rev (firstn (S s) (elems (f_package c))))
  ++ (if uniq then "." ++ t ++ "." ++ f_name c else "." ++ f_name c).

Lemma skipn_rev_firstn {A} n (l : list A) :
  skipn (List.length l - n) l = rev (firstn n (rev l)).
Proof. rewrite firstn_rev, rev_involutive. reflexivity. Qed.

Lemma safe_name_eq s uniq t c :
  safeName s uniq t c =
  if Nat.leb s 0 || Nat.ltb s (List.length (elems (f_package c))) then Ok (name_at s uniq t c) else Panic.
Proof.
  unfold safeName, name_at. destruct (Nat.ltb 0 s) eqn:E.
  - apply Nat.ltb_lt in E. destruct (Nat.leb s 0) eqn:E0; [apply Nat.leb_le in E0; lia|]. simpl orb.
    unfold elems at 1. rewrite rev_length.
    replace (Nat.leb (s + 1) (List.length (split "/" (f_package c))))
      with (Nat.ltb s (List.length (split "/" (f_package c)))) by (unfold Nat.ltb; f_equal; lia).
    destruct (Nat.ltb s _); auto. rewrite skipn_rev_firstn, Nat.add_1_r. reflexivity.
  - apply Nat.ltb_ge in E. assert (s = 0) as -> by lia. simpl orb.
    rewrite package_name_last_elem. unfold last_elem. f_equal. f_equal.
    pose proof (split_not_nil "/" (f_package c)) as H.
    unfold elems. destruct (rev (split "/" (f_package c))) eqn:Er; [|reflexivity].
    apply (f_equal (@rev _)) in Er. rewrite rev_involutive in Er. now contradiction H.
Qed.

Definition entries_of (o : Orders) (s : nat) (c : Field) : list (string * string) :=
  map (fun t => (collisionSafeKey t (f_name c) (f_package c), name_at s (snd (tags_met o c)) t c))
      (fst (tags_met o c)).

Definition all_entries (o : Orders) (groups : list (string * list Field)) : list (string * string) :=
  flat_map (fun g => flat_map (entries_of o (sameUntilOf (snd g))) (snd g)) groups.

Definition assign (l : list (string * string)) (m : list (string * string)) : list (string * string) :=
  fold_left (fun acc kv => minsert (fst kv) (snd kv) acc) l m.

Definition fits (s : nat) (c : Field) : bool :=
  Nat.leb s 0 || Nat.ltb s (List.length (elems (f_package c))).

Lemma add_names_eq s uniq c tags names :
  addNames s uniq c tags names =
  if fits s c || match tags with [] => true | _ => false end
  then Ok (assign (map (fun t => (collisionSafeKey t (f_name c) (f_package c), name_at s uniq t c)) tags) names)
  else Panic.
Proof.
  revert names. induction tags as [|t tags IH]; intros names; simpl.
  - now rewrite orb_true_r.
  - rewrite safe_name_eq. fold (fits s c). destruct (fits s c) eqn:E; simpl; auto.
    rewrite IH. simpl. reflexivity.
Qed.

Lemma assign_app l1 l2 m : assign (l1 ++ l2) m = assign l2 (assign l1 m).
Proof. unfold assign. apply fold_left_app. Qed.

Lemma tags_met_not_nil o c : fst (tags_met o c) <> [].
Proof.
  unfold tags_met, ExtractBindingTags.
  destruct (extractFields _ [] false) as [[|t l] u]; discriminate.
Qed.

Lemma name_group_eq o s cs names :
  nameGroup o s cs names =
  if forallb (fits s) cs then Ok (assign (flat_map (entries_of o s) cs) names) else Panic.
Proof.
  revert names. induction cs as [|c cs IH]; intros names; [reflexivity|].
  cbn [nameGroup forallb flat_map]. fold (tags_met o c).
  pose proof (tags_met_not_nil o c) as Hn. unfold entries_of at 1.
  destruct (tags_met o c) as [tags uniq]. simpl fst in *. simpl snd.
  rewrite add_names_eq. destruct tags as [|t tags]; [congruence|].
  rewrite orb_false_r. destruct (fits s c); simpl; auto.
  rewrite IH. destruct (forallb (fits s) cs); auto. rewrite assign_app. reflexivity.
Qed.

Definition group_fits (g : string * list Field) : bool := forallb (fits (sameUntilOf (snd g))) (snd g).

Lemma name_groups_eq o groups names :
  nameGroups o groups names =
  if forallb group_fits groups then Ok (assign (all_entries o groups) names) else Panic.
Proof.
  revert names. induction groups as [|[n cs] gs IH]; intros names; [reflexivity|].
  cbn [nameGroups forallb]. rewrite name_group_eq. unfold group_fits at 1. cbn [snd].
  destruct (forallb (fits (sameUntilOf cs)) cs); simpl; auto.
  rewrite IH. destruct (forallb group_fits gs); auto. rewrite assign_app. reflexivity.
Qed.

Lemma make_names_eq o components names :
  makeCollisionSafeNames o components names =
  if forallb group_fits (o_groups o (groupComponents components))
  then Ok (assign (all_entries o (o_groups o (groupComponents components))) names) else Panic.
Proof. apply name_groups_eq. Qed.

(** the level of a component's group *)
Definition level_of (components : list Field) (c : Field) : nat :=
  sameUntilOf (group_of components (getPackageName (f_package c))).

Lemma all_entries_in o components k n :
  valid_orders o -> parsed_components components ->
  (In (k, n) (all_entries o (o_groups o (groupComponents components))) <->
   exists c t, In c components /\ registered c t /\
     k = collisionSafeKey t (f_name c) (f_package c) /\
     n = name_at (level_of components c) (verdict c) t c).
Proof.
  intros Ho Hp. destruct Ho as (Hg & Ho'). assert (Ho : valid_orders o) by (split; auto).
  unfold all_entries. rewrite in_flat_map. split.
  - intros ([m cs] & Hin & H). apply (Permutation_in _ (Permutation_sym (Hg _))) in Hin.
    apply group_components_in in Hin as [-> _]. simpl in H.
    apply in_flat_map in H as (c & Hc & H). apply group_of_in in Hc as [Hc Hm].
    assert (Hz : nonzero_fields (f_structFields c)) by (apply parsed_nonzero, Hp, Hc).
    unfold entries_of in H. apply in_map_iff in H as (t & E & Ht).
    rewrite tags_met_unique in E by auto. apply tags_met_in in Ht; auto.
    injection E as <- <-. exists c, t. unfold level_of. rewrite Hm. auto.
  - intros (c & t & Hc & Ht & -> & ->).
    assert (Hz : nonzero_fields (f_structFields c)) by (apply parsed_nonzero, Hp, Hc).
    exists (getPackageName (f_package c), group_of components (getPackageName (f_package c))).
    assert (Hcg : In c (group_of components (getPackageName (f_package c)))) by now apply group_of_in.
    split.
    + apply (Permutation_in _ (Hg _)). apply group_components_in. split; auto.
      intros E. rewrite E in Hcg. destruct Hcg.
    + simpl. apply in_flat_map. exists c. split; auto. unfold entries_of. apply in_map_iff.
      exists t. split; [|now apply tags_met_in].
      rewrite tags_met_unique by auto. reflexivity.
Qed.

Lemma assign_lookup l m k :
  mlookup k (assign l m) = match mlookup k (rev l) with Some v => Some v | None => mlookup k m end.
Proof. unfold assign. apply fold_minsert_lookup. Qed.

Lemma assign_lookup_in l m k n :
  mlookup k (assign l m) = Some n -> In (k, n) l \/ mlookup k m = Some n.
Proof.
  rewrite assign_lookup. destruct (mlookup k (rev l)) eqn:E; auto.
  intros [= <-]. left. apply mlookup_In in E. now apply in_rev.
Qed.

Lemma assign_lookup_some l m k n : In (k, n) l -> exists n', mlookup k (assign l m) = Some n' /\ In (k, n') l.
Proof.
  intros H. rewrite assign_lookup. destruct (mlookup k (rev l)) as [n'|] eqn:E.
  - exists n'. split; auto. apply mlookup_In in E. now apply in_rev.
  - exfalso. apply mlookup_None in E. apply E. unfold mkeys. rewrite map_rev, <- in_rev.
    apply in_map_iff. exists (k, n). auto.
Qed.

(** ** No panic *)
Lemma first_diff_spec k a b j :
  firstDiff k a b = Some j ->
  exists i, j = k + i /\ firstn i a = firstn i b /\
    exists x y, nth_error a i = Some x /\ nth_error b i = Some y /\ x <> y.
Proof.
  revert k b. induction a as [|x a IH]; intros k [|y b]; simpl; try discriminate.
  destruct (String.eqb x y) eqn:E; simpl.
  - intros H. apply IH in H as (i & -> & H1 & H2). exists (S i). split; [lia|].
    apply String.eqb_eq in E as ->. split; [simpl; congruence|auto].
  - intros [= <-]. apply String.eqb_neq in E. exists 0. split; [lia|]. split; auto.
    exists x, y. auto.
Qed.

Lemma first_diff_complete k a b i x y :
  firstn i a = firstn i b -> nth_error a i = Some x -> nth_error b i = Some y -> x <> y ->
  firstDiff k a b = Some (k + i).
Proof.
  revert k a b. induction i as [|i IH]; intros k a b Hf Ha Hb Hne.
  - destruct a, b; try discriminate. simpl in *. injection Ha as ->. injection Hb as ->.
    apply String.eqb_neq in Hne. rewrite Hne. simpl. f_equal. lia.
  - destruct a as [|u a], b as [|v b]; try discriminate. simpl in *. injection Hf as -> Hf.
    rewrite String.eqb_refl. simpl. rewrite (IH (S k)); auto. f_equal. lia.
Qed.

Lemma diff_loop_spec pi cands s :
  diffLoop pi cands s = s \/
  exists cj, In cj cands /\ pi <> f_package cj /\ first_differ_at (diffLoop pi cands s) pi (f_package cj).
Proof.
  induction cands as [|cj r IH]; simpl; auto.
  destruct (String.eqb pi (f_package cj)) eqn:E; simpl.
  - destruct IH as [IH|(c & H1 & H2)]; auto. right. exists c. auto.
  - destruct (firstDiff 0 _ _) as [k|] eqn:Ed; auto.
    apply String.eqb_neq in E. apply first_diff_spec in Ed as (i & -> & H).
    right. exists cj. split; auto.
Qed.

Lemma firstn_In {A} n (l : list A) x : In x (firstn n l) -> In x l.
Proof. intros H. rewrite <- (firstn_skipn n l). apply in_app_iff; auto. Qed.

Lemma same_until_from_spec n i rest s :
  sameUntilFrom n i rest s = s \/
  exists c1 c2, In c1 rest /\ In c2 rest /\ f_package c1 <> f_package c2 /\
    first_differ_at (sameUntilFrom n i rest s) (f_package c1) (f_package c2).
Proof.
  revert i s. induction rest as [|ci r IH]; intros i s; simpl; auto.
  destruct (IH (S i) (diffLoop (f_package ci) (firstn (n - i - (i + 1)) r) s)) as [E|(c1 & c2 & H1 & H2 & H)].
  - rewrite E. destruct (diff_loop_spec (f_package ci) (firstn (n - i - (i + 1)) r) s) as [H|(cj & Hj & Hne & H)]; auto.
    right. exists ci, cj. repeat split; auto; try (right; eapply firstn_In; eauto); apply H.
  - right. exists c1, c2. repeat split; auto; apply H.
Qed.

Lemma level_zero_or_differ components n :
  sameUntilOf (group_of components n) = 0 \/
  exists c1 c2, In c1 (group_of components n) /\ In c2 (group_of components n) /\
    f_package c1 <> f_package c2 /\
    first_differ_at (sameUntilOf (group_of components n)) (f_package c1) (f_package c2).
Proof. apply same_until_from_spec. Qed.

Lemma deep_enough_fits components n c :
  deep_enough components -> In c (group_of components n) ->
  fits (sameUntilOf (group_of components n)) c = true.
Proof.
  intros Hd Hc. unfold fits. destruct (level_zero_or_differ components n) as [->|(c1 & c2 & H1 & H2 & _ & H)].
  - reflexivity.
  - apply group_of_in in Hc as [Hc Ec], H1 as [H1 E1], H2 as [H2 E2].
    rewrite package_name_last_elem in *.
    apply orb_true_iff. right. apply Nat.ltb_lt. eapply (Hd c c1 c2); eauto; congruence.
Qed.

Lemma make_names_ok o components names :
  valid_orders o -> deep_enough components ->
  exists names', makeCollisionSafeNames o components names = Ok names'.
Proof.
  intros Ho Hd. rewrite make_names_eq.
  replace (forallb group_fits (o_groups o (groupComponents components))) with true; [eauto|].
  symmetry. apply forallb_forall. intros [n cs] Hin.
  destruct Ho as (Hg & _). apply (Permutation_in _ (Permutation_sym (Hg _))) in Hin.
  apply group_components_in in Hin as [-> _]. unfold group_fits. simpl.
  apply forallb_forall. intros c Hc. now apply deep_enough_fits.
Qed.

(** The outcome is a panic exactly if some component of a group does not fit. *)
Lemma make_names_panic_iff o components names :
  valid_orders o ->
  (makeCollisionSafeNames o components names = Panic <->
   exists c, In c components /\ fits (level_of components c) c = false).
Proof.
  intros (Hg & _). rewrite make_names_eq.
  destruct (forallb group_fits (o_groups o (groupComponents components))) eqn:E.
  - split; [discriminate|]. intros (c & Hc & Hf). exfalso.
    rewrite forallb_forall in E.
    assert (Hcg : In c (group_of components (getPackageName (f_package c)))) by now apply group_of_in.
    assert (In (getPackageName (f_package c), group_of components (getPackageName (f_package c)))
               (o_groups o (groupComponents components))) as Hin.
    { apply (Permutation_in _ (Hg _)). apply group_components_in. split; auto.
      intros E0. rewrite E0 in Hcg. destruct Hcg. }
    apply E in Hin. unfold group_fits in Hin. simpl in Hin. rewrite forallb_forall in Hin.
    apply Hin in Hcg. unfold level_of in Hf. congruence.
  - split; auto. intros _.
    assert (exists g, In g (o_groups o (groupComponents components)) /\ group_fits g = false) as ([n cs] & Hin & Hf).
    { clear - E. induction (o_groups o (groupComponents components)) as [|g l IH]; [discriminate|].
      simpl in E. destruct (group_fits g) eqn:Eg; [|exists g; split; [left; auto|auto]].
      destruct (IH E) as (g' & H1 & H2). exists g'. split; [right; auto|auto]. }
    apply (Permutation_in _ (Permutation_sym (Hg _))) in Hin.
    apply group_components_in in Hin as [-> _]. unfold group_fits in Hf. simpl in Hf.
    assert (exists c, In c (group_of components n) /\ fits (sameUntilOf (group_of components n)) c = false) as (c & Hc & Hfc).
    { clear - Hf. set (s := sameUntilOf (group_of components n)) in *. clearbody s.
      induction (group_of components n) as [|c l IH]; [discriminate|]. simpl in Hf.
      destruct (fits s c) eqn:Ec; [|exists c; split; [left; auto|auto]].
      destruct (IH Hf) as (g' & H1 & H2). exists g'. split; [right; auto|auto]. }
    apply group_of_in in Hc as [Hc <-]. exists c. auto.
Qed.

(** ** Keys *)
Lemma key_eq t n p :
  collisionSafeKey t n p = (p ++ (if String.eqb t NoBindingTag then "" else "." ++ t)) ++ "." ++ n.
Proof.
  unfold collisionSafeKey. destruct (String.eqb t NoBindingTag); simpl negb; cbn iota.
  - rewrite append_nil_r. reflexivity.
  - rewrite !join_cons, join_one, !append_assoc. reflexivity.
Qed.

Lemma app_dot_inj a b n m :
  has_char "." n = false -> has_char "." m = false -> a ++ "." ++ n = b ++ "." ++ m -> a = b /\ n = m.
Proof.
  intros Hn Hm E. assert (n = m) as ->.
  { apply (f_equal (after_last ".")) in E.
    assert (forall x y, has_char "." y = false -> after_last "." (x ++ "." ++ y) = y) as H.
    { intros x y Hy. rewrite after_last_split, split_app. cbn [append].
      replace (split "." (String "." y)) with ["" ; y].
      - cbn [hd tl]. rewrite append_nil_r.
        match goal with |- last (?l ++ [?a; ?b])%list _ = _ =>
          replace (l ++ [a; b])%list with ((l ++ [a]) ++ [b])%list by (now rewrite <- app_assoc) end.
        apply last_last.
      - simpl. now rewrite split_no_sep. }
    rewrite !H in E; auto. }
  split; auto. apply append_inj_r in E. auto.
Qed.

Lemma tag_no_dot t : In t (NoBindingTag :: BindingTags) -> has_char "." t = false.
Proof. simpl. intuition (subst; reflexivity). Qed.

Lemma key_inj components c1 c2 t1 t2 :
  unambiguous components -> In c1 components -> In c2 components ->
  In t1 (NoBindingTag :: BindingTags) -> In t2 (NoBindingTag :: BindingTags) ->
  collisionSafeKey t1 (f_name c1) (f_package c1) = collisionSafeKey t2 (f_name c2) (f_package c2) ->
  t1 = t2 /\ comp_key c1 = comp_key c2.
Proof.
  intros [Hn Hp] H1 H2 Ht1 Ht2 E. rewrite !key_eq in E.
  apply app_dot_inj in E as [E En]; auto.
  unfold comp_key. rewrite En.
  destruct (String.eqb t1 NoBindingTag) eqn:E1, (String.eqb t2 NoBindingTag) eqn:E2;
    rewrite ?String.eqb_eq, ?String.eqb_neq in *; rewrite ?append_nil_r in E.
  - split; congruence.
  - exfalso. destruct Ht2 as [Ht2|Ht2]; [congruence|]. eapply (Hp c1 c2); eauto.
  - exfalso. destruct Ht1 as [Ht1|Ht1]; [congruence|]. eapply (Hp c2 c1); eauto.
  - apply app_dot_inj in E as [-> ->]; auto using tag_no_dot.
Qed.

Lemma registered_tag c t :
  parsed_fields (f_structFields c) -> registered c t -> In t (NoBindingTag :: BindingTags).
Proof.
  intros Hp [(k & f & b & Hf & Hb)|[_ H]]; [|right; auto].
  destruct (Hp k f Hf) as (name & tag & _ & HP).
  apply (Permutation_in _ (Permutation_sym HP)) in Hb.
  apply parse_tag_in in Hb as [(v & H & _)|(-> & _)]; [right; auto|left; auto].
Qed.

(** ** The level of a group with two packages *)
Lemma diff_loop_level pi cands s d :
  (forall cj, In cj cands -> f_package cj <> pi -> first_differ_at d pi (f_package cj)) ->
  diffLoop pi cands s = if forallb (fun c => String.eqb pi (f_package c)) cands then s else d.
Proof.
  intros H. induction cands as [|cj r IH]; simpl; auto.
  destruct (String.eqb pi (f_package cj)) eqn:E; simpl.
  - apply IH. intros; apply H; simpl; auto.
  - apply String.eqb_neq in E.
    destruct (H cj (or_introl eq_refl) (fun e => E (eq_sym e))) as (Hf & x & y & H1 & H2 & H3).
    change (rev (split "/" pi)) with (elems pi). change (rev (split "/" (f_package cj))) with (elems (f_package cj)).
    rewrite (first_diff_complete 0 _ _ d x y); auto.
Qed.

Lemma same_until_level n i rest s d :
  (forall c1 c2, In c1 rest -> In c2 rest -> f_package c1 <> f_package c2 ->
     first_differ_at d (f_package c1) (f_package c2)) ->
  sameUntilFrom n i rest s = s \/ sameUntilFrom n i rest s = d.
Proof.
  revert i s. induction rest as [|ci r IH]; intros i s H; simpl; auto.
  assert (Hs : diffLoop (f_package ci) (firstn (n - i - (i + 1)) r) s = s \/
               diffLoop (f_package ci) (firstn (n - i - (i + 1)) r) s = d).
  { rewrite (diff_loop_level _ _ _ d).
    - destruct (forallb _ _); auto.
    - intros cj Hj Hne. apply H; [left; auto|right; eapply firstn_In; eauto|auto]. }
  destruct (IH (S i) (diffLoop (f_package ci) (firstn (n - i - (i + 1)) r) s)) as [E|E].
  - intros; apply H; simpl; auto.
  - rewrite E. auto.
  - auto.
Qed.

Lemma same_until_two l d :
  (forall c1 c2, In c1 l -> In c2 l -> f_package c1 <> f_package c2 ->
     first_differ_at d (f_package c1) (f_package c2)) ->
  (exists c1 c2, In c1 l /\ In c2 l /\ f_package c1 <> f_package c2) ->
  sameUntilOf l = d.
Proof.
  intros H (c1 & c2 & H1 & H2 & Hne). unfold sameUntilOf.
  destruct l as [|c0 r]; [destruct H1|]. cbn [sameUntilFrom].
  replace (firstn (List.length (c0 :: r) - 0 - (0 + 1)) r) with r.
  2:{ symmetry. replace (List.length (c0 :: r) - 0 - (0 + 1)) with (List.length r) by (simpl; lia).
      apply firstn_all. }
  rewrite (diff_loop_level _ _ _ d).
  2:{ intros cj Hj Hn. apply H; [left; auto|right; auto|auto]. }
  destruct (forallb (fun c => String.eqb (f_package c0) (f_package c)) r) eqn:E.
  - exfalso. rewrite forallb_forall in E.
    assert (Hall : forall c, In c (c0 :: r) -> f_package c = f_package c0).
    { intros c [<-|Hc]; auto. apply E in Hc. apply String.eqb_eq in Hc. auto. }
    apply Hne. rewrite (Hall c1), (Hall c2); auto.
  - destruct (same_until_level (List.length (c0 :: r)) 1 r d d) as [E2|E2]; auto.
    intros; apply H; simpl; auto.
Qed.

Lemma level_of_separated components level c c' :
  separated components level -> In c components -> In c' components ->
  last_elem (f_package c) = last_elem (f_package c') -> f_package c <> f_package c' ->
  level_of components c = level (last_elem (f_package c)).
Proof.
  intros Hs Hc Hc' He Hne. unfold level_of. rewrite package_name_last_elem.
  apply same_until_two.
  - intros c1 c2 H1 H2 Hn. apply group_of_in in H1 as [H1 E1], H2 as [H2 E2].
    rewrite package_name_last_elem in *. rewrite <- E1. apply Hs; auto. congruence.
  - exists c, c'. repeat split; auto; apply group_of_in; split; auto;
      rewrite package_name_last_elem; auto.
Qed.

Lemma level_of_le components level c :
  separated components level -> In c components ->
  level_of components c = 0 \/ level_of components c = level (last_elem (f_package c)).
Proof.
  intros Hs Hc. unfold level_of. rewrite package_name_last_elem.
  apply same_until_level. intros c1 c2 H1 H2 Hn.
  apply group_of_in in H1 as [H1 E1], H2 as [H2 E2].
  rewrite package_name_last_elem in *. rewrite <- E1. apply Hs; auto. congruence.
Qed.

Lemma nth_error_firstn_lt {A} n i (l : list A) : i < n -> nth_error (firstn n l) i = nth_error l i.
Proof.
  revert i l. induction n as [|n IH]; intros i l H; [lia|].
  destruct l as [|x l]; [now destruct i|]. destruct i as [|i]; simpl; auto. apply IH. lia.
Qed.

(** ** Injectivity of names *)
Definition name_parts (s : nat) (uniq : bool) (t : string) (c : Field) : list string :=
  (rev (firstn (S s) (elems (f_package c))) ++ (if uniq then [t] else []) ++ [f_name c])%list.

Lemma name_parts_not_nil s uniq t c : name_parts s uniq t c <> [].
Proof. unfold name_parts. intros H. apply app_eq_nil in H as [_ H]. destruct uniq; discriminate. Qed.

Lemma elems_not_nil p : elems p <> [].
Proof.
  unfold elems. intros H. apply (f_equal (@rev _)) in H. rewrite rev_involutive in H.
  now apply split_not_nil in H.
Qed.

Lemma join_app_one sep l1 x : l1 <> [] -> join sep (l1 ++ [x])%list = join sep l1 ++ sep ++ x.
Proof.
  induction l1 as [|a l1 IH]; [congruence|]. intros _.
  destruct l1 as [|b l1]; [reflexivity|].
  change ((a :: b :: l1) ++ [x])%list with (a :: (b :: l1) ++ [x])%list.
  rewrite join_cons_nonnil by discriminate. rewrite IH by discriminate.
  rewrite join_cons, !append_assoc. reflexivity.
Qed.

Lemma name_at_parts s uniq t c : name_at s uniq t c = join "." (name_parts s uniq t c).
Proof.
  unfold name_at, name_parts.
  assert (Hne : rev (firstn (S s) (elems (f_package c))) <> []).
  { pose proof (elems_not_nil (f_package c)) as H. destruct (elems (f_package c)); [congruence|].
    simpl. destruct (rev _); discriminate. }
  destruct uniq.
  - change ([t] ++ [f_name c])%list with ([t] ++ [f_name c])%list. rewrite app_assoc.
    rewrite join_app_one by (destruct (rev _); discriminate).
    rewrite join_app_one by auto. rewrite !append_assoc. reflexivity.
  - simpl app. rewrite join_app_one by auto. reflexivity.
Qed.

Lemma firstn_le_In {A} n m (l : list A) x : n <= m -> In x (firstn n l) -> In x (firstn m l).
Proof.
  intros H Hin. replace (firstn n l) with (firstn n (firstn m l)) in Hin.
  - eapply firstn_In; eauto.
  - rewrite firstn_firstn. f_equal. lia.
Qed.

Lemma name_at_inj components level c1 c2 t1 t2 :
  separated components level -> plain_names components level ->
  In c1 components -> In c2 components ->
  In t1 (NoBindingTag :: BindingTags) -> In t2 (NoBindingTag :: BindingTags) ->
  name_at (level_of components c1) (verdict c1) t1 c1 = name_at (level_of components c2) (verdict c2) t2 c2 ->
  comp_key c1 = comp_key c2.
Proof.
  intros Hs Hp H1 H2 Ht1 Ht2 E. rewrite !name_at_parts in E.
  destruct (Hp c1 H1) as [Hn1 HF1], (Hp c2 H2) as [Hn2 HF2].
  assert (Hseg : forall c, In c components -> forall e, In e (firstn (S (level_of components c)) (elems (f_package c))) ->
            has_char "." e = false /\ e <> "" /\ ~ In e BindingTags).
  { intros c Hc e He. destruct (Hp c Hc) as [_ HF]. rewrite Forall_forall in HF. apply HF.
    eapply firstn_le_In; [|exact He]. destruct (level_of_le components level c Hs Hc) as [->| ->]; lia. }
  assert (Hparts : forall c t, In c components -> In t (NoBindingTag :: BindingTags) ->
            has_char "." (f_name c) = false ->
            Forall (fun x => has_char "." x = false) (name_parts (level_of components c) (verdict c) t c)).
  { intros c t Hc Ht Hn. unfold name_parts. rewrite !Forall_app. repeat split.
    - apply Forall_forall. intros e He. rewrite <- in_rev in He. now apply Hseg in He.
    - destruct (verdict c); constructor; auto. now apply tag_no_dot.
    - constructor; auto. }
  change "." with (str1 ".") in E. apply (f_equal (split ".")) in E.
  rewrite !split_join in E; try (apply Hparts; auto); try apply name_parts_not_nil.
  unfold name_parts in E. rewrite !app_assoc in E. apply app_inj_tail in E as [E En].
  assert (E' : firstn (S (level_of components c1)) (elems (f_package c1)) =
               firstn (S (level_of components c2)) (elems (f_package c2))).
  { assert (forall c t d, In c components -> In t (NoBindingTag :: BindingTags) ->
              (rev (firstn (S (level_of components c)) (elems (f_package c)))) = (d ++ [t])%list -> False) as Hbad.
    { intros c t d Hc Ht Ed. assert (In t (firstn (S (level_of components c)) (elems (f_package c)))) as Hin.
      { rewrite in_rev, Ed. apply in_app_iff. right; left; auto. }
      apply Hseg in Hin; auto. destruct Hin as (_ & Hne & Hni). destruct Ht as [<-|Ht]; auto. }
    destruct (verdict c1), (verdict c2); rewrite ?app_nil_r in E.
    - apply app_inj_tail in E as [E _]. rewrite <- (rev_involutive (firstn _ (elems (f_package c1)))), E.
      apply rev_involutive.
    - exfalso. symmetry in E. eapply (Hbad c2 t1); eauto.
    - exfalso. eapply (Hbad c1 t2); eauto.
    - rewrite <- (rev_involutive (firstn _ (elems (f_package c1)))), E. apply rev_involutive. }
  unfold comp_key. rewrite En. f_equal.
  destruct (String.eqb (f_package c1) (f_package c2)) eqn:Ep; [now apply String.eqb_eq|].
  apply String.eqb_neq in Ep. exfalso.
  assert (He : last_elem (f_package c1) = last_elem (f_package c2)).
  { unfold last_elem. pose proof (elems_not_nil (f_package c1)). pose proof (elems_not_nil (f_package c2)).
    destruct (elems (f_package c1)), (elems (f_package c2)); try congruence. simpl in E'. injection E' as -> _.
    reflexivity. }
  rewrite (level_of_separated components level c1 c2) in E' by auto.
  rewrite (level_of_separated components level c2 c1) in E' by (auto; congruence).
  rewrite <- He in E'. destruct (Hs c1 c2 H1 H2 He Ep) as (_ & x & y & Hx & Hy & Hne).
  apply Hne. set (d := level (last_elem (f_package c1))) in *.
  assert (nth_error (firstn (S d) (elems (f_package c1))) d = Some x) as Hx'.
  { rewrite nth_error_firstn_lt; auto. }
  assert (nth_error (firstn (S d) (elems (f_package c2))) d = Some y) as Hy'.
  { rewrite nth_error_firstn_lt; auto. }
  rewrite E' in Hx'. congruence.
Qed.

(** ** Order independence and stability *)
Lemma nodup_key_eq components c1 c2 :
  NoDup (map comp_key components) -> In c1 components -> In c2 components ->
  comp_key c1 = comp_key c2 -> c1 = c2.
Proof.
  induction components as [|c cs IH]; simpl; [tauto|]. intros HN H1 H2 E. inversion HN; subst.
  destruct H1 as [<-|H1], H2 as [<-|H2]; auto.
  - exfalso. apply H3. rewrite E. now apply in_map.
  - exfalso. apply H3. rewrite <- E. now apply in_map.
Qed.

Lemma entries_functional o o' components k n n' :
  valid_orders o -> valid_orders o' -> parsed_components components -> unambiguous components ->
  NoDup (map comp_key components) ->
  In (k, n) (all_entries o (o_groups o (groupComponents components))) ->
  In (k, n') (all_entries o' (o_groups o' (groupComponents components))) -> n = n'.
Proof.
  intros Ho Ho' Hp Hu HN H1 H2. apply all_entries_in in H1, H2; auto.
  destruct H1 as (c1 & t1 & Hc1 & Ht1 & -> & ->). destruct H2 as (c2 & t2 & Hc2 & Ht2 & E & ->).
  pose proof (registered_tag _ _ (Hp _ Hc1) Ht1) as Q1. pose proof (registered_tag _ _ (Hp _ Hc2) Ht2) as Q2.
  apply (key_inj components) in E; auto.
  destruct E as [<- E2]. apply (nodup_key_eq components) in E2; auto. now subst.
Qed.

Lemma entries_lookup o components names0 k :
  valid_orders o -> parsed_components components -> unambiguous components ->
  NoDup (map comp_key components) ->
  (forall n, In (k, n) (all_entries o (o_groups o (groupComponents components))) ->
     mlookup k (assign (all_entries o (o_groups o (groupComponents components))) names0) = Some n) /\
  ((forall n, ~ In (k, n) (all_entries o (o_groups o (groupComponents components)))) ->
     mlookup k (assign (all_entries o (o_groups o (groupComponents components))) names0) = mlookup k names0).
Proof.
  intros Ho Hp Hu HN. split.
  - intros n Hin. destruct (assign_lookup_some _ names0 _ _ Hin) as (n' & -> & Hin').
    f_equal. eapply entries_functional; eauto.
  - intros Hn. rewrite assign_lookup. destruct (mlookup k (rev _)) as [n|] eqn:E; auto.
    exfalso. apply mlookup_In in E. apply in_rev in E. eapply Hn; eauto.
Qed.

(** What the names are afterwards. *)
Lemma make_names_lookup o components names0 names :
  valid_orders o -> parsed_components components -> unambiguous components ->
  NoDup (map comp_key components) ->
  makeCollisionSafeNames o components names0 = Ok names ->
  (forall c t, In c components -> registered c t ->
     mlookup (collisionSafeKey t (f_name c) (f_package c)) names
     = Some (name_at (level_of components c) (verdict c) t c)) /\
  (forall k, (forall c t, In c components -> registered c t -> k <> collisionSafeKey t (f_name c) (f_package c)) ->
     mlookup k names = mlookup k names0).
Proof.
  intros Ho Hp Hu HN E. rewrite make_names_eq in E.
  destruct (forallb group_fits (o_groups o (groupComponents components))); [|discriminate].
  injection E as <-. split.
  - intros c t Hc Ht.
    destruct (entries_lookup o components names0 (collisionSafeKey t (f_name c) (f_package c)) Ho Hp Hu HN) as [H _].
    apply H. apply all_entries_in; auto. exists c, t. auto.
  - intros k Hk. destruct (entries_lookup o components names0 k Ho Hp Hu HN) as [_ H].
    apply H. intros n Hin. apply all_entries_in in Hin as (c & t & Hc & Ht & -> & _); auto.
    eapply Hk; eauto.
Qed.

Lemma assign_sorted l m : msorted m -> msorted (assign l m).
Proof. unfold assign. intros H. apply fold_minsert_sorted; auto. Qed.

Lemma make_names_sorted o components names0 names :
  msorted names0 -> makeCollisionSafeNames o components names0 = Ok names -> msorted names.
Proof.
  intros Hm E. rewrite make_names_eq in E.
  destruct (forallb group_fits (o_groups o (groupComponents components))); [|discriminate].
  injection E as <-. now apply assign_sorted.
Qed.

Lemma make_names_ok_or_panic o components names0 :
  (exists names, makeCollisionSafeNames o components names0 = Ok names) \/
  makeCollisionSafeNames o components names0 = Panic.
Proof. rewrite make_names_eq. destruct (forallb _ _); eauto. Qed.

Lemma make_names_order_independent o o' components names0 :
  valid_orders o -> valid_orders o' -> parsed_components components -> unambiguous components ->
  NoDup (map comp_key components) -> msorted names0 ->
  makeCollisionSafeNames o components names0 = makeCollisionSafeNames o' components names0.
Proof.
  intros Ho Ho' Hp Hu HN Hm.
  destruct (make_names_ok_or_panic o components names0) as [[n1 E1]|E1].
  - destruct (make_names_ok_or_panic o' components names0) as [[n2 E2]|E2].
    + rewrite E1, E2. f_equal.
      pose proof E1 as E1'. pose proof E2 as E2'.
      rewrite make_names_eq in E1', E2'.
      destruct (forallb group_fits (o_groups o (groupComponents components))); [|discriminate].
      destruct (forallb group_fits (o_groups o' (groupComponents components))); [|discriminate].
      injection E1' as <-. injection E2' as <-.
      apply smap_ext; try (now apply assign_sorted). intros k.
      destruct (mlookup k (rev (all_entries o (o_groups o (groupComponents components))))) as [n|] eqn:El.
      * apply mlookup_In, in_rev in El.
        destruct (entries_lookup o components names0 k Ho Hp Hu HN) as [H1 _].
        destruct (entries_lookup o' components names0 k Ho' Hp Hu HN) as [H2 _].
        rewrite (H1 n El), (H2 n); auto. apply all_entries_in; auto. apply (all_entries_in o) in El; auto.
      * destruct (entries_lookup o components names0 k Ho Hp Hu HN) as [_ H1].
        destruct (entries_lookup o' components names0 k Ho' Hp Hu HN) as [_ H2].
        assert (Hn : forall n, ~ In (k, n) (all_entries o (o_groups o (groupComponents components)))).
        { intros n Hin. apply in_rev in Hin. apply mlookup_None in El. apply El.
          apply in_map_iff. exists (k, n). auto. }
        rewrite H1, H2; auto. intros n Hin. apply (Hn n). apply all_entries_in; auto.
        apply (all_entries_in o') in Hin; auto.
    + exfalso. apply make_names_panic_iff in E2; auto. apply (make_names_panic_iff o _ names0) in E2; auto. congruence.
  - rewrite E1. symmetry. apply make_names_panic_iff; auto. now apply (make_names_panic_iff o _ names0) in E1.
Qed.

Lemma make_names_again o o' components names0 names :
  valid_orders o -> valid_orders o' -> parsed_components components -> unambiguous components ->
  NoDup (map comp_key components) -> msorted names0 ->
  makeCollisionSafeNames o components names0 = Ok names ->
  makeCollisionSafeNames o' components names = Ok names.
Proof.
  intros Ho Ho' Hp Hu HN Hm E.
  pose proof (make_names_sorted _ _ _ _ Hm E) as Hs.
  destruct (make_names_ok_or_panic o' components names) as [[n2 E2]|E2].
  - rewrite E2. f_equal.
    pose proof (make_names_sorted _ _ _ _ Hs E2) as Hs2.
    apply smap_ext; auto. intros k.
    destruct (make_names_lookup _ _ _ _ Ho Hp Hu HN E) as [A1 _].
    destruct (make_names_lookup _ _ _ _ Ho' Hp Hu HN E2) as [B1 _].
    rewrite make_names_eq in E2. destruct (forallb _ _); [|discriminate]. injection E2 as <-.
    destruct (mlookup k (rev (all_entries o' (o_groups o' (groupComponents components))))) as [n|] eqn:El.
    + apply mlookup_In, in_rev in El. apply all_entries_in in El as (c & t & Hc & Ht & -> & _); auto.
      rewrite B1, A1; auto.
    + rewrite assign_lookup, El. reflexivity.
  - exfalso. apply make_names_panic_iff in E2; auto. apply (make_names_panic_iff o _ names0) in E2; auto. congruence.
Qed.

(** Published names identify components. *)
Lemma ref_name_inj o components names level c1 c2 t1 t2 n :
  valid_orders o -> parsed_components components -> separated components level -> plain_names components level ->
  makeCollisionSafeNames o components [] = Ok names ->
  In c1 components -> In c2 components ->
  In t1 (NoBindingTag :: BindingTags) -> In t2 (NoBindingTag :: BindingTags) ->
  makeComponentRefName names t1 (f_name c1) (f_package c1) = Some n ->
  makeComponentRefName names t2 (f_name c2) (f_package c2) = Some n ->
  comp_key c1 = comp_key c2.
Proof.
  intros Ho Hp Hs Hpl E H1 H2 Ht1 Ht2 E1 E2.
  assert (Hu : unambiguous components).
  { split; [intros c Hc; now destruct (Hpl c Hc)|].
    intros d1 d2 t Hd1 Hd2 Ht Ed. destruct (Hpl d1 Hd1) as [_ HF].
    pose proof (elems_not_nil (f_package d1)) as Hne.
    assert (Hlast : has_char "." (last_elem (f_package d1)) = false).
    { unfold last_elem. destruct (elems (f_package d1)) eqn:El; [congruence|].
      simpl in HF. inversion HF; subst. tauto. }
    rewrite <- package_name_last_elem in Hlast. unfold getPackageName in Hlast. rewrite Ed in Hlast.
    assert (has_char "/" ("." ++ t) = false) as Hns by (simpl in Ht; intuition (subst; reflexivity)).
    rewrite after_last_split, split_app in Hlast.
    rewrite (split_no_sep "/" ("." ++ t)) in Hlast by auto. cbn [hd tl] in Hlast.
    rewrite last_last, has_char_append, has_char_append in Hlast. simpl in Hlast.
    rewrite orb_true_r in Hlast. discriminate. }
  assert (Hfrom : forall c t, In c components -> In t (NoBindingTag :: BindingTags) ->
            makeComponentRefName names t (f_name c) (f_package c) = Some n ->
            exists c' t', In c' components /\ In t' (NoBindingTag :: BindingTags) /\ comp_key c' = comp_key c /\
              n = name_at (level_of components c') (verdict c') t' c').
  { intros c t Hc Ht Er.
    assert (exists t0, In t0 (NoBindingTag :: BindingTags) /\
              mlookup (collisionSafeKey t0 (f_name c) (f_package c)) names = Some n) as (t0 & Ht0 & El).
    { unfold makeComponentRefName in Er. destruct (mlookup _ names) eqn:El in Er.
      - injection Er as ->. eauto.
      - exists NoBindingTag. split; [left; auto|auto]. }
    rewrite make_names_eq in E. destruct (forallb _ _); [|discriminate]. injection E as <-.
    apply assign_lookup_in in El as [El|El]; [|discriminate].
    apply all_entries_in in El as (c' & t' & Hc' & Hr & Ek & En); auto.
    assert (Ht' : In t' (NoBindingTag :: BindingTags)) by (eapply registered_tag; eauto; apply Hp; auto).
    exists c', t'. repeat split; auto.
    symmetry. eapply (key_inj components c c' t0 t'); eauto. }
  destruct (Hfrom _ _ H1 Ht1 E1) as (d1 & u1 & Hd1 & Hu1 & K1 & N1).
  destruct (Hfrom _ _ H2 Ht2 E2) as (d2 & u2 & Hd2 & Hu2 & K2 & N2).
  rewrite <- K1, <- K2. apply (name_at_inj components level d1 d2 u1 u2); auto. congruence.
Qed.
