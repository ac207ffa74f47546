(** Proofs about the library functions and tables the code relies on. *)
From Coq Require Import List String Ascii Bool ZArith Arith Lia.
From Verif Require Import BaseStr BaseMap M_Types M_Collect S_Collect P_Collect M_Parse M_Resolve M_FS P_FS M_Service S_Details.
Import ListNotations.
Local Open Scope string_scope.

(** ** path.Base *)
Lemma only_slashes_cons c s : only_slashes (String c s) <-> c = "/"%char /\ only_slashes s.
Proof.
  split.
  - intros H. split; [exact (H "" c s eq_refl)|]. intros a d b ->. exact (H (String c a) d b eq_refl).
  - intros (-> & H) [|x a] d b E; injection E as Ex E; [auto|]. exact (H a d b E).
Qed.
Lemma only_slashes_nil : only_slashes "".
Proof. intros [|] c b E; discriminate. Qed.
Lemma trim_only s : only_slashes s -> trim_trailing_slashes s = "".
Proof.
  induction s as [|c s IH]; intros H; cbn [trim_trailing_slashes]; auto. apply only_slashes_cons in H as (-> & H). now rewrite IH.
Qed.
Lemma trim_app s t : only_slashes t -> trim_trailing_slashes (s ++ t) = trim_trailing_slashes s.
Proof. intros H. induction s as [|c s IH]; cbn [append trim_trailing_slashes]; [now apply trim_only|now rewrite IH]. Qed.
Lemma trim_rest s : exists t, only_slashes t /\ s = trim_trailing_slashes s ++ t.
Proof.
  induction s as [|c s (t & T & E)]; [exists ""; split; [apply only_slashes_nil|reflexivity]|].
  cbn [trim_trailing_slashes]. destruct (trim_trailing_slashes s) as [|d r] eqn:R.
  - cbn [append] in E. subst t. destruct (Ascii.eqb_spec c "/") as [->|N].
    + exists (String "/" s). split; [now apply only_slashes_cons|reflexivity].
    + exists s. split; auto.
  - exists t. split; auto. cbn [append] in *. congruence.
Qed.
Lemma trim_end s : trim_trailing_slashes s = "" \/ exists a c, trim_trailing_slashes s = a ++ str1 c /\ c <> "/"%char.
Proof.
  induction s as [|c s IH]; [now left|]. cbn [trim_trailing_slashes]. destruct (trim_trailing_slashes s) as [|d r] eqn:R.
  - destruct (Ascii.eqb_spec c "/"); [now left|]. right. exists "", c. auto.
  - right. destruct IH as [IH|(a & x & E & N)]; [discriminate|]. exists (String c a), x. split; auto. cbn [append]. congruence.
Qed.
Lemma trim_fixed a c : c <> "/"%char -> trim_trailing_slashes (a ++ str1 c) = a ++ str1 c.
Proof.
  intros N. induction a as [|x a IH]; cbn [append trim_trailing_slashes str1].
  - destruct (Ascii.eqb_spec c "/"); [congruence|reflexivity].
  - fold (str1 c). rewrite IH. destruct a; reflexivity.
Qed.
Lemma last_char s : s <> "" -> exists a c, s = a ++ str1 c.
Proof.
  induction s as [|c s IH]; [congruence|]. intros _. destruct s as [|d s].
  - exists "", c. reflexivity.
  - destruct IH as (a & x & ->); [discriminate|]. exists (String c a), x. reflexivity.
Qed.
Lemma after_last_slash d b : has_char "/" b = false -> after_last "/" (d ++ "/" ++ b) = b.
Proof.
  intros N. induction d as [|c d IH]; cbn [append after_last].
  - rewrite N. reflexivity.
  - assert (H : has_char "/" (d ++ String "/" b) = true) by (rewrite has_char_append; cbn; apply orb_true_r). rewrite H. exact IH.
Qed.
Lemma after_last_none b : has_char "/" b = false -> after_last "/" b = b.
Proof. intros N. rewrite after_last_split, (split_no_sep "/" b N). reflexivity. Qed.
Lemma after_last_dir dir b : has_char "/" b = false -> (dir = "" \/ exists d, dir = d ++ "/") -> after_last "/" (dir ++ b) = b.
Proof. intros N [->|(d & ->)]; [now apply after_last_none|]. rewrite append_assoc. now apply after_last_slash. Qed.
Lemma after_last_cut s : exists dir, s = dir ++ after_last "/" s /\ (dir = "" \/ exists d, dir = d ++ "/").
Proof.
  induction s as [|c s (dir & E & D)]; [exists ""; auto|]. cbn [after_last].
  destruct (has_char "/" s) eqn:H.
  - exists (String c dir). split; [cbn; congruence|]. right. destruct D as [->|(d & ->)].
    + cbn in E. exfalso. rewrite E, after_last_no_char in H. discriminate.
    + exists (String c d). reflexivity.
  - destruct (Ascii.eqb_spec c "/") as [->|N].
    + exists "/". split; [reflexivity|]. right. exists "". reflexivity.
    + exists "". auto.
Qed.

Lemma base_spec p b : base_name p b <-> path_Base p = b.
Proof.
  assert (S : forall p b, base_name p b -> path_Base p = b).
  { clear. intros p b [|p' N O|dir b' tail N H O D].
    - reflexivity.
    - unfold path_Base. rewrite (trim_only p' O). destruct p'; [congruence|reflexivity].
    - destruct (last_char b' N) as (a & c & ->).
      assert (Nc : c <> "/"%char).
      { intros ->. rewrite has_char_append in H. cbn in H. now rewrite orb_true_r in H. }
      assert (T : after_last "/" (trim_trailing_slashes (dir ++ (a ++ str1 c) ++ tail)) = a ++ str1 c).
      { rewrite <- append_assoc, trim_app by auto. rewrite <- append_assoc, (trim_fixed (dir ++ a) c Nc), append_assoc. now apply after_last_dir. }
      unfold path_Base. rewrite T. destruct (dir ++ (a ++ str1 c) ++ tail) eqn:Z.
      + exfalso. apply append_eq_nil in Z as (_ & Z). apply append_eq_nil in Z as (Z & _). apply append_eq_nil in Z as (_ & Z). discriminate.
      + destruct (a ++ str1 c) eqn:Y; [|reflexivity]. apply append_eq_nil in Y as (_ & Y). discriminate. }
  split; [apply S|]. intros <-.
  assert (X : exists b, base_name p b); [|destruct X as (b & X); now rewrite (S p b X)].
  destruct (trim_rest p) as (t & T & E). destruct (trim_end p) as [Z|(a & c & Z & N)].
  - rewrite Z in E. cbn in E. subst t. destruct p as [|x p]; [eexists; constructor|]. eexists. now apply bn_root.
  - destruct (after_last_cut (trim_trailing_slashes p)) as (dir & E' & D). set (b := after_last "/" (trim_trailing_slashes p)) in *.
    exists b. rewrite E, E', append_assoc. apply bn_last; auto; [|apply after_last_no_char].
    intros B. rewrite B, append_nil_r in E'. rewrite Z in E'. destruct D as [->|(d & ->)].
    + apply append_eq_nil in E' as (_ & E'). discriminate.
    + assert (str1 c = "/") as Y by (eapply append_inj_len with (b := str1 c) (d := "/"); [|exact E']; apply (f_equal String.length) in E'; rewrite !length_append in E'; cbn in E'; lia).
      injection Y as ->. congruence.
Qed.

(** ** Handler names *)
Lemma package_name s : exists n, PackageName (SplitHandlerPath s) = Ok n /\ has_char "/" n = false /\
  (PackagePath (SplitHandlerPath s) = n \/ exists d, PackagePath (SplitHandlerPath s) = d ++ "/" ++ n).
Proof.
  unfold PackageName, PackagePath, SplitHandlerPath. cbn [hp_pathParts].
  set (l := removelast (split "/" s)). set (x := hd "" (split "." (last (split "/" s) ""))).
  exists x. split; [|split].
  - destruct (l ++ [x])%list eqn:E; [now destruct l|]. rewrite <- E. now rewrite last_last.
  - assert (X : has_char "/" (last (split "/" s) "") = false).
    { rewrite <- after_last_split. apply after_last_no_char. }
    unfold x. rewrite <- (join_split "." (last (split "/" s) "")) in X.
    destruct (split "." (last (split "/" s) "")) as [|y ys]; [reflexivity|]. cbn [hd].
    destruct ys; [exact X|]. rewrite join_cons, has_char_append in X. now apply orb_false_iff in X.
  - destruct l as [|y l]; [now left|]. right. exists (join "/" (y :: l)).
    revert y. induction l as [|z l IH]; intros y; [reflexivity|].
    change ((y :: z :: l) ++ [x])%list with (y :: z :: (l ++ [x]))%list. rewrite !join_cons. rewrite !append_assoc. do 2 f_equal. apply IH.
Qed.

(** ** float64 *)
Lemma float_round_pos_spec z : (0 <= z)%Z ->
  representable (float_round_pos z) /\ forall r, representable r -> (Z.abs (z - float_round_pos z) <= Z.abs (z - r))%Z.
Proof.
  intros P. unfold float_round_pos. destruct (Z.ltb_spec z (2 ^ 53)) as [L|L].
  { split; [exists z, 0%Z; cbn [Z.pow] in *; lia|]. intros r _. lia. }
  set (k := (Z.log2 z - 52)%Z). assert (K : (1 <= k)%Z).
  { assert (53 <= Z.log2 z)%Z by (apply Z.log2_le_pow2; lia). lia. }
  set (u := (2 ^ k)%Z). assert (U : (0 < u)%Z) by (apply Z.pow_pos_nonneg; lia).
  assert (B : (2 ^ 52 * u <= z < 2 ^ 53 * u)%Z).
  { unfold u. rewrite <- !Z.pow_add_r by lia. replace (52 + k)%Z with (Z.log2 z) by lia. replace (53 + k)%Z with (Z.succ (Z.log2 z)) by lia.
    apply Z.log2_spec. lia. }
  pose proof (Z.div_mod z u ltac:(lia)) as D. pose proof (Z.mod_pos_bound z u U) as M.
  set (q := (z / u)%Z) in *. set (r := (z mod u)%Z) in *.
  assert (Q : (2 ^ 52 <= q < 2 ^ 53)%Z).
  { split; [apply Z.div_le_lower_bound; lia|apply Z.div_lt_upper_bound; lia]. }
  assert (R1 : representable (q * u)) by (exists q, k; fold u; lia).
  assert (R2 : representable ((q + 1) * u)).
  { destruct (Z.eq_dec (q + 1) (2 ^ 53)) as [E|E].
    - exists (2 ^ 52)%Z, (k + 1)%Z. rewrite E. split; [lia|]. split; [reflexivity|]. rewrite Z.pow_add_r by lia. fold u. lia.
    - exists (q + 1)%Z, k. fold u. lia. }
  assert (G : forall x, representable x -> (x <= q * u \/ (q + 1) * u <= x)%Z).
  { intros x (m & e & E0 & Em & ->). destruct (Z.le_gt_cases k e) as [H|H].
    - assert (Y : (m * 2 ^ e = (m * 2 ^ (e - k)) * u)%Z).
      { unfold u. rewrite <- Z.mul_assoc, <- Z.pow_add_r by lia. do 2 f_equal. lia. }
      rewrite Y. set (y := (m * 2 ^ (e - k))%Z). destruct (Z.le_gt_cases y q); [left|right]; apply Z.mul_le_mono_nonneg_r; lia.
    - left. assert (X : (2 ^ e * 2 <= u)%Z).
      { unfold u. replace k with (e + 1 + (k - e - 1))%Z by lia. rewrite !Z.pow_add_r by lia.
        assert (0 < 2 ^ e)%Z by (apply Z.pow_pos_nonneg; lia). assert (1 <= 2 ^ (k - e - 1))%Z by (assert (0 < 2 ^ (k - e - 1))%Z by (apply Z.pow_pos_nonneg; lia); lia). nia. }
      assert (0 < 2 ^ e)%Z by (apply Z.pow_pos_nonneg; lia).
      assert (Y : (m * 2 ^ e <= 2 ^ 53 * 2 ^ e)%Z) by (apply Z.mul_le_mono_nonneg_r; lia).
      change (2 ^ 53)%Z with (2 ^ 52 * 2)%Z in Y. assert (2 ^ 52 * u <= q * u)%Z by (apply Z.mul_le_mono_nonneg_r; lia). lia. }
  assert (X : ((q + 1) * u = q * u + u)%Z) by lia.
  destruct (Z.ltb_spec (2 * r) u) as [H|H]; cbn [orb].
  - split; auto. intros x Hx. specialize (G x Hx). lia.
  - destruct (Z.eqb_spec (2 * r) u) as [H'|H']; cbn [andb].
    + destruct (Z.even q); (split; [auto|]); intros x Hx; specialize (G x Hx); lia.
    + split; auto. intros x Hx. specialize (G x Hx). lia.
Qed.
Lemma representable_opp r : representable r -> representable (- r).
Proof. intros (m & e & H & A & ->). exists (- m)%Z, e. rewrite Z.abs_opp. lia. Qed.
Lemma float_round_spec z : representable (float_round z) /\ forall r, representable r -> (Z.abs (z - float_round z) <= Z.abs (z - r))%Z.
Proof.
  unfold float_round. destruct (Z.ltb_spec z 0) as [L|L].
  - destruct (float_round_pos_spec (- z) ltac:(lia)) as (R & N). split; [now apply representable_opp|].
    intros r Hr. specialize (N (- r)%Z (representable_opp _ Hr)). lia.
  - now apply float_round_pos_spec.
Qed.

(** ** rename(2) *)
Lemma rename_exact {C} (src dst : list string) (j k : string) (t : tree C) :
  is_prefix (src ++ [k]) (dst ++ [j]) = false ->
  ((exists t', rename (src ++ [k]) (dst ++ [j]) t = Some t') <->
   kind_at (src ++ [k]) t <> None /\ kind_at dst t = Some KDir /\ replaces (src ++ [k]) (dst ++ [j]) t).
Proof.
  intros N. split.
  - intros (t' & E). split; [eapply rename_spec; eauto|]. split; [eapply rename_dst; eauto|].
    unfold rename in E. unfold replaces, kind_at. destruct (get (src ++ [k]) t) as [x|] eqn:G; [|discriminate]. rewrite N in E.
    destruct (get (dst ++ [j]) t) as [[b|es]|] eqn:D; [| |now left].
    + destruct x as [a|]; [|discriminate]. right. left. exists a, b. split; reflexivity.
    + destruct x as [a|xs]; [discriminate|]. destruct es; [|discriminate]. right. right. repeat split.
      intros i. rewrite get_app, D. reflexivity.
  - intros (S & P & R). unfold rename. unfold kind_at in S. destruct (get (src ++ [k]) t) as [x|] eqn:G; [|now cbn in S]. rewrite N.
    assert (F : match x, get (dst ++ [j]) t with
                | _, None => true | File _, Some (File _) => true | Dir _, Some (Dir []) => true | _, _ => false end = true).
    { destruct R as [R|[(a & b & A & B)|(A & B & Em)]]; unfold kind_at in *.
      - destruct (get (dst ++ [j]) t) as [[]|]; try discriminate. now destruct x.
      - rewrite G in A. destruct x; [|discriminate]. destruct (get (dst ++ [j]) t) as [[]|]; try discriminate; reflexivity.
      - rewrite G in A. destruct x; [discriminate|]. destruct (get (dst ++ [j]) t) as [[|es]|] eqn:D; try discriminate.
        destruct es as [|(i & y) es]; [reflexivity|]. specialize (Em i). rewrite get_app, D in Em. cbn in Em. rewrite String.eqb_refl in Em.
        destruct y; discriminate. }
    rewrite F. destruct (put_some dst j (Some x) t P) as (u & PU). rewrite PU. apply put_some.
    rewrite (put_kind _ _ _ _ _ PU). destruct (is_prefix (dst ++ [j]) src) eqn:Q.
    + exfalso. apply is_prefix_spec in Q as (r & ->). rewrite <- app_assoc, get_app in G.
      destruct (get (dst ++ [j]) t) as [[b|es]|] eqn:D; [| |discriminate].
      * destruct r; discriminate.
      * assert (es = []) as -> by (destruct x, es; try discriminate; reflexivity). destruct r as [|i [|]]; discriminate.
    + apply kind_below with (q := [k]); [|discriminate]. unfold kind_at. rewrite G. destruct x; discriminate.
Qed.

(** ** Left-hand sides *)
Lemma rooted_spec e : rooted e = true <-> reached e.
Proof.
  split.
  - induction e; cbn [rooted]; intros H; try discriminate; [constructor|constructor; auto].
  - induction 1; auto.
Qed.
Lemma extract_spec e n : n <> "" -> (ExtractVarName e = n <-> names_place e n).
Proof.
  intros N. split.
  - intros <-. destruct e; cbn [ExtractVarName] in *; try (now elim N); [constructor|].
    destruct (rooted e) eqn:R; [|now elim N]. constructor. now apply rooted_spec.
  - intros [id name o|x id name R]; [reflexivity|]. apply rooted_spec in R. cbn [ExtractVarName]. now rewrite R.
Qed.

(** ** Constraints *)
Lemma constraint_spec type k : mlookup type acceptedTypeMap = Some k <-> has_constraint type k.
Proof.
  split.
  - unfold acceptedTypeMap. cbn [mlookup]. intros H.
    repeat (match type of H with (if String.eqb ?a ?b then _ else _) = _ => destruct (String.eqb_spec a b); [subst; injection H as <-; unfold has_constraint, constraint_groups; eexists; split; [cbn [In]; repeat ((left; reflexivity) || right)|cbn; tauto]|] end).
    discriminate.
  - intros (types & G & T). unfold constraint_groups in G. cbn [In] in G.
    repeat (destruct G as [G|G]; [injection G as <- <-; cbn [In] in T; repeat (destruct T as [<-|T]; [reflexivity|]); destruct T|]). destruct G.
Qed.
Lemma constraint_none type : mlookup type acceptedTypeMap = None <-> forall k, ~ has_constraint type k.
Proof.
  split.
  - intros H k C. apply constraint_spec in C. congruence.
  - intros H. destruct (mlookup type acceptedTypeMap) as [k|] eqn:E; auto. apply constraint_spec in E. now elim (H k).
Qed.
