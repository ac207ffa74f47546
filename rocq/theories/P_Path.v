(** Where joined paths lead. *)
From Coq Require Import List String Ascii Bool ZArith Arith Lia.
From Verif Require Import BaseStr BaseMap M_Types M_FS P_FS.
Import ListNotations.
Local Open Scope string_scope.

(** A name that stands for itself in a path. *)
Definition plain_name (k : string) : Prop := k <> "" /\ k <> "." /\ k <> ".." /\ has_char "/" k = false.

Definition under (base : list string) (x : string) : list string :=
  rev (fold_left (push true) (split "/" x) (rev base)).

Definition kept (c : string) : Prop := c <> "" /\ c <> ".".

Lemma push_plain rooted acc k : kept k -> k <> ".." -> push rooted acc k = k :: acc.
Proof.
  intros (A & B) D. unfold push. apply String.eqb_neq in A, B, D. now rewrite A, B, D.
Qed.

Lemma push_kept rooted acc c : Forall kept acc -> Forall kept (push rooted acc c).
Proof.
  intros H. unfold push. destruct (String.eqb c "" || String.eqb c ".") eqn:E; auto.
  apply orb_false_iff in E as (E1 & E2). apply String.eqb_neq in E1, E2.
  destruct (String.eqb c "..") eqn:E3.
  - destruct acc as [|d acc]; [destruct rooted; repeat constructor; discriminate|].
    destruct (String.eqb d ".."); [constructor; auto; split; discriminate|now inversion H].
  - constructor; auto. split; auto.
Qed.

Lemma pushes_kept rooted l acc : Forall kept acc -> Forall kept (fold_left (push rooted) l acc).
Proof. revert acc; induction l; cbn; intros; auto using push_kept. Qed.

Lemma push_no_slash rooted acc c :
  has_char "/" c = false -> Forall (fun x => has_char "/" x = false) acc ->
  Forall (fun x => has_char "/" x = false) (push rooted acc c).
Proof.
  intros N H. unfold push. destruct (String.eqb c "" || String.eqb c "."); auto.
  destruct (String.eqb c "..") eqn:E.
  - apply String.eqb_eq in E. subst. destruct acc as [|d acc]; [destruct rooted; repeat constructor|].
    destruct (String.eqb d ".."); [constructor; auto|now inversion H].
  - constructor; auto.
Qed.

Lemma pushes_no_slash rooted l acc :
  Forall (fun x => has_char "/" x = false) l -> Forall (fun x => has_char "/" x = false) acc ->
  Forall (fun x => has_char "/" x = false) (fold_left (push rooted) l acc).
Proof.
  revert acc; induction l; cbn; intros acc H1 H2; auto. inversion H1; subst. apply IHl; auto.
  now apply push_no_slash.
Qed.

(** Below the root there are no dot-dots left. *)
Lemma pushes_rooted l acc :
  Forall (fun x => x <> "..") acc -> Forall (fun x => x <> "..") (fold_left (push true) l acc).
Proof.
  revert acc; induction l as [|c l IH]; cbn; intros acc H; auto. apply IH. unfold push.
  destruct (String.eqb c "" || String.eqb c "."); auto. destruct (String.eqb c "..") eqn:E.
  - destruct acc as [|d acc]; auto. inversion H; subst.
    destruct (String.eqb d "..") eqn:E'; auto. apply String.eqb_eq in E'. congruence.
  - constructor; auto. now apply String.eqb_neq.
Qed.

(** Following a cleaned path is following the path. *)
Lemma push_cleaned acc c base :
  Forall kept acc ->
  fold_left (push true) (rev (push false acc c)) base = push true (fold_left (push true) (rev acc) base) c.
Proof.
  intros K. unfold push at 2.
  destruct (String.eqb c "" || String.eqb c ".") eqn:E.
  - unfold push at 2. now rewrite E.
  - destruct (String.eqb c "..") eqn:E2.
    + apply String.eqb_eq in E2. subst c. destruct acc as [|d acc].
      * reflexivity.
      * destruct (String.eqb d "..") eqn:E3.
        -- cbn [rev]. now rewrite fold_left_app.
        -- cbn [rev]. rewrite fold_left_app. cbn [fold_left].
           rewrite (push_plain true _ d); [|now inversion K|now apply String.eqb_neq].
           unfold push. cbn [String.eqb orb]. now rewrite E3.
    + cbn [rev]. now rewrite fold_left_app.
Qed.

Lemma pushes_cleaned l acc base :
  Forall kept acc ->
  fold_left (push true) (rev (fold_left (push false) l acc)) base
  = fold_left (push true) l (fold_left (push true) (rev acc) base).
Proof.
  revert acc; induction l as [|c l IH]; cbn [fold_left]; intros acc K; auto.
  rewrite IH by now apply push_kept. now rewrite push_cleaned.
Qed.

Lemma pushes_plain l acc :
  Forall kept l -> Forall (fun x => x <> "..") l -> fold_left (push true) l acc = (rev l ++ acc)%list.
Proof.
  revert acc; induction l as [|c l IH]; cbn; intros acc K D; auto.
  inversion K; inversion D; subst. rewrite push_plain by auto. rewrite IH by auto. now rewrite <- app_assoc.
Qed.

Lemma is_rooted_join l : is_rooted (join "/" l) = match l with [] => false | [x] => is_rooted x | x :: _ => String.eqb x "" || is_rooted x end.
Proof.
  destruct l as [|x [|y l]]; auto. rewrite join_cons. unfold is_rooted.
  destruct x as [|c x]; reflexivity.
Qed.

Lemma rooted_no_slash x : has_char "/" x = false -> is_rooted x = false.
Proof.
  unfold is_rooted. destruct x as [|c x]; auto. cbn [has_char has_prefix]. intros H.
  apply orb_false_iff in H as (H & _). rewrite Ascii.eqb_sym in H. rewrite H. reflexivity.
Qed.

Lemma split_cons_slash s : split "/" ("/" ++ s) = "" :: split "/" s.
Proof. exact (split_app_sep "/" "" s eq_refl). Qed.

Lemma split_sep c a b : split c (a ++ String c b) = (split c a ++ split c b)%list.
Proof.
  rewrite split_app. cbn [split]. rewrite Ascii.eqb_refl. cbn [hd tl]. rewrite append_nil_r.
  change (?x ++ ?y :: ?z)%list with (x ++ [y] ++ z)%list. rewrite app_assoc. f_equal. symmetry.
  apply app_removelast_last. apply split_not_nil.
Qed.

Lemma split_join_slash l :
  l <> [] -> Forall (fun x => has_char "/" x = false) l -> split "/" (join "/" l) = l.
Proof. exact (split_join "/" l). Qed.

Lemma locate_clean cwd p : locate cwd (path_Clean p) = locate cwd p.
Proof.
  assert (NS := split_no_char "/" p).
  unfold path_Clean. destruct (is_rooted p) eqn:R.
  - remember (rev (fold_left (push true) (split "/" p) [])) as l eqn:Hl.
    assert (K : Forall kept l) by (subst l; apply Forall_rev, pushes_kept; constructor).
    assert (D : Forall (fun x => x <> "..") l) by (subst l; apply Forall_rev, pushes_rooted; constructor).
    assert (S : Forall (fun x => has_char "/" x = false) l) by (subst l; apply Forall_rev, pushes_no_slash; auto).
    unfold locate at 1. change (is_rooted ("/" ++ join "/" l)) with true. cbv iota.
    rewrite split_cons_slash. cbn [fold_left]. change (push true [] "") with (@nil string).
    unfold locate. rewrite R, <- Hl. clear Hl.
    destruct (list_eq_dec string_dec l []) as [->|N]; [reflexivity|].
    rewrite (split_join_slash l) by auto.
    rewrite pushes_plain by auto. now rewrite app_nil_r, rev_involutive.
  - remember (rev (fold_left (push false) (split "/" p) [])) as l eqn:Hl.
    assert (K : Forall kept l) by (subst l; apply Forall_rev, pushes_kept; constructor).
    assert (S : Forall (fun x => has_char "/" x = false) l) by (subst l; apply Forall_rev, pushes_no_slash; auto).
    assert (E : forall base, fold_left (push true) l base = fold_left (push true) (split "/" p) base).
    { intros base. subst l. now rewrite pushes_cleaned by constructor. }
    clear Hl. unfold locate. rewrite R. destruct (list_eq_dec string_dec l []) as [->|N].
    + change (is_rooted ".") with false. cbv iota. change (split "/" ".") with ["."].
      rewrite <- E. reflexivity.
    + replace (match l with [] => "." | _ => join "/" l end) with (join "/" l) by (destruct l; [congruence|reflexivity]).
      replace (is_rooted (join "/" l)) with false.
      * rewrite (split_join_slash l) by auto. now rewrite E.
      * rewrite is_rooted_join. destruct l as [|a l']; [congruence|].
        inversion K as [|? ? (K1 & _) _]; inversion S; subst.
        destruct l'; [now rewrite rooted_no_slash|]. apply String.eqb_neq in K1. now rewrite K1, rooted_no_slash.
Qed.

Lemma locate_empty cwd : locate cwd "" = cwd.
Proof. unfold locate. cbn. apply rev_involutive. Qed.

Lemma under_empty base : under base "" = base.
Proof. unfold under. cbn. apply rev_involutive. Qed.

Lemma locate_join cwd w x :
  w <> "" \/ is_rooted x = false -> locate cwd (path_Join [w; x]) = under (locate cwd w) x.
Proof.
  intros H. unfold path_Join. cbn [filter].
  destruct (String.eqb w "") eqn:W; destruct (String.eqb x "") eqn:X; cbn [negb].
  - apply String.eqb_eq in W, X. subst. now rewrite locate_empty, under_empty.
  - apply String.eqb_eq in W. subst. destruct H as [H|H]; [congruence|].
    rewrite locate_clean, locate_empty. unfold locate, under. cbn [join String.concat]. now rewrite H.
  - apply String.eqb_eq in X. subst. rewrite locate_clean, under_empty. reflexivity.
  - rewrite locate_clean. cbn [join String.concat].
    assert (R : is_rooted (w ++ "/" ++ x) = is_rooted w).
    { apply String.eqb_neq in W. destruct w as [|c w]; [congruence|]. reflexivity. }
    unfold locate at 1. rewrite R. change (w ++ "/" ++ x) with (w ++ String "/" x); rewrite (split_sep "/" w x).
    rewrite fold_left_app. unfold under, locate. now rewrite rev_involutive.
Qed.

Lemma under_plain base k : plain_name k -> under base k = (base ++ [k])%list.
Proof.
  intros (A & B & D & S). unfold under. rewrite split_no_sep by auto. cbn [fold_left].
  rewrite push_plain; [|split; auto|auto]. cbn. now rewrite rev_involutive.
Qed.

Lemma locate_join_plain cwd w k : plain_name k -> locate cwd (path_Join [w; k]) = (locate cwd w ++ [k])%list.
Proof.
  intros P. rewrite locate_join; [now apply under_plain|]. right. apply rooted_no_slash. apply P.
Qed.

(** What cleaning leaves in front of a plain name. *)
Lemma join_last l k : exists a, join "/" (l ++ [k])%list = a ++ k.
Proof.
  induction l as [|x l (a & IH)].
  - exists "". reflexivity.
  - cbn [app]. destruct (l ++ [k])%list as [|y m] eqn:E; [now destruct l|].
    rewrite join_cons. cbn [app] in IH. rewrite IH. exists (x ++ "/" ++ a). now rewrite !append_assoc.
Qed.

Lemma path_join_last w k : plain_name k -> exists a, path_Join [w; k] = a ++ k.
Proof.
  intros (A & B & D & S). unfold path_Join. cbn [filter].
  assert (Hk : String.eqb k "" = false) by now apply String.eqb_neq. rewrite Hk.
  assert (X : exists p, match (if negb (String.eqb w "") then [w; k] else [k]) with
                        | [] => "" | l' => path_Clean (join "/" l') end = path_Clean p /\ exists l, split "/" p = (l ++ [k])%list).
  { destruct (String.eqb w ""); cbn [negb].
    - exists k. split; auto. exists []. now apply split_no_sep.
    - exists (w ++ "/" ++ k). split; auto. exists (split "/" w).
      change (w ++ "/" ++ k) with (w ++ String "/" k); rewrite (split_sep "/" w k). now rewrite (split_no_sep "/" k) by auto. }
  cbn [negb]. destruct X as (p & E & l & L).
  change (path_Clean p) with (path_Clean p) in E.
  assert (G : exists a, path_Clean p = a ++ k).
  { unfold path_Clean. rewrite L, fold_left_app. cbn [fold_left].
    rewrite !push_plain by (try (split; auto); auto). cbn [rev].
    destruct (is_rooted p).
    - destruct (join_last (rev (fold_left (push true) l [])) k) as (a & ->). exists ("/" ++ a). now rewrite append_assoc.
    - destruct (rev (fold_left (push false) l []) ++ [k])%list eqn:E'; [now destruct (rev (fold_left (push false) l []))|].
      rewrite <- E'. apply join_last. }
  destruct G as (a & G). exists a. rewrite <- G, <- E. destruct (String.eqb w ""); reflexivity.
Qed.

(** Where the current directory says it is. *)
Lemma locate_cwd cwd base : Forall plain_name cwd -> locate base ("/" ++ join "/" cwd) = cwd.
Proof.
  intros H. unfold locate. change (is_rooted ("/" ++ join "/" cwd)) with true. cbv iota.
  rewrite split_cons_slash. cbn [fold_left]. change (push true [] "") with (@nil string).
  destruct cwd as [|a l] eqn:E; [reflexivity|]. rewrite <- E in *.
  rewrite (split_join_slash cwd); [|now subst|eapply Forall_impl; [|exact H]; intros x X; apply X].
  rewrite pushes_plain.
  - now rewrite app_nil_r, rev_involutive.
  - eapply Forall_impl; [|exact H]. intros x X; split; apply X.
  - eapply Forall_impl; [|exact H]. intros x X; apply X.
Qed.

Lemma snoc_inj u v c d : u ++ str1 c = v ++ str1 d -> u = v /\ c = d.
Proof.
  revert v; induction u as [|x u IH]; intros [|y v] E; cbn in E.
  - injection E as ->. auto.
  - injection E as _ E. destruct v; discriminate.
  - injection E as _ E. destruct u; discriminate.
  - injection E as -> E. destruct (IH v E) as (-> & ->). auto.
Qed.

Lemma snoc_exists k : k <> "" -> exists b c, k = b ++ str1 c.
Proof.
  induction k as [|x k IH]; [congruence|]. intros _. destruct k as [|y k].
  - exists "", x. reflexivity.
  - destruct IH as (b & c & E); [discriminate|]. exists (String x b), c. rewrite E. reflexivity.
Qed.

Lemma not_dot_suffix a k :
  plain_name k ->
  String.eqb (a ++ k) "." = false /\ has_suffix "/." (a ++ k) = false /\ String.eqb (a ++ k) "" = false.
Proof.
  intros (A & B & D & S). destruct (snoc_exists k A) as (b & c & ->). repeat split.
  - apply String.eqb_neq. intros E. rewrite <- append_assoc in E. change "." with ("" ++ str1 ".") in E.
    apply snoc_inj in E as (E & ->). apply append_eq_nil in E as (-> & ->). now apply B.
  - destruct (has_suffix "/." (a ++ b ++ str1 c)) eqn:E; auto. exfalso.
    apply has_suffix_spec in E as (p & E). change "/." with (str1 "/" ++ str1 ".") in E.
    rewrite <- !append_assoc in E. apply snoc_inj in E as (E & ->).
    destruct (string_dec b "") as [->|N]; [now apply B|].
    destruct (snoc_exists b N) as (b' & y & ->). rewrite <- append_assoc in E. apply snoc_inj in E as (_ & ->).
    rewrite !has_char_append in S. cbn in S. now rewrite !orb_true_r in S.
  - apply String.eqb_neq. intros E. apply append_eq_nil in E as (_ & E). apply A. exact E.
Qed.
