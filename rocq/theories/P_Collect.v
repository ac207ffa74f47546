From Coq Require Import List String Ascii Bool ZArith Arith Lia.
From Verif Require Import BaseStr M_Types M_Collect S_Collect.
Import ListNotations.
Local Open Scope string_scope.

(** ** Handler names *)
Lemma removelast_last_split c s :
  (removelast (split c s) ++ [last (split c s) ""])%list = split c s.
Proof. symmetry. apply app_removelast_last. apply split_not_nil. Qed.

Lemma hd_tl_split c s : hd "" (split c s) :: tl (split c s) = split c s.
Proof. destruct (split c s) eqn:E; [now apply split_not_nil in E|reflexivity]. Qed.

Lemma join_dotted a l : join "." (a :: l) = a ++ dotted l.
Proof.
  revert a. induction l as [|b l IH]; intros a.
  - simpl. now rewrite append_nil_r.
  - rewrite join_cons, IH. reflexivity.
Qed.

Lemma join_snoc sep l a b :
  join sep (l ++ [(a ++ b)%string])%list = join sep (l ++ [a])%list ++ b.
Proof.
  induction l as [|x l IH]; [reflexivity|].
  rewrite <- !app_comm_cons.
  rewrite !join_cons_nonnil by (destruct l; discriminate).
  rewrite IH. now rewrite !append_assoc.
Qed.

Lemma split_lossless s :
  PackagePath (SplitHandlerPath s) ++ dotted (hp_handlerParts (SplitHandlerPath s)) = s.
Proof.
  unfold PackagePath, SplitHandlerPath. simpl.
  rewrite <- join_snoc. rewrite <- join_dotted.
  rewrite hd_tl_split.
  change "." with (str1 "."). rewrite join_split.
  rewrite removelast_last_split. change "/" with (str1 "/"). apply join_split.
Qed.

Lemma mangle_slash pkg : has_char "/" (mangle pkg) = has_char "/" pkg.
Proof.
  induction pkg as [|c r IH]; [reflexivity|]. cbn [mangle].
  destruct (always_escaped c || (c =? ".")%char && negb (has_char "/" r)) eqn:E.
  - rewrite has_char_append, IH.
    assert ((c =? "/")%char = false) as Hc.
    { apply orb_true_iff in E as [E|E].
      - apply Ascii.eqb_neq. intros ->. discriminate.
      - apply andb_true_iff in E as [E _]. apply Ascii.eqb_eq in E. now subst. }
    simpl. rewrite Hc. simpl.
    assert (forall n, (hex_digit n =? "/")%char = false) as Hh.
    { intros n. unfold hex_digit. do 16 (destruct n as [|n]; [reflexivity|]).
      simpl. destruct n; reflexivity. }
    unfold percent. simpl. rewrite !Hh. reflexivity.
  - simpl. now rewrite IH.
Qed.

Lemma hex_digit_dot n : (hex_digit n =? ".")%char = false.
Proof.
  unfold hex_digit. do 16 (destruct n as [|n]; [reflexivity|]). simpl. destruct n; reflexivity.
Qed.

Lemma percent_no_dot c : has_char "." (percent c) = false.
Proof. unfold percent. simpl. now rewrite !hex_digit_dot. Qed.

Lemma mangle_no_dot_noslash r : has_char "/" r = false -> has_char "." (mangle r) = false.
Proof.
  induction r as [|c r IH]; [reflexivity|]. intros H. simpl in H.
  apply orb_false_iff in H as [H1 H2]. cbn [mangle]. rewrite H2. simpl negb. rewrite andb_true_r.
  destruct (always_escaped c || (c =? ".")%char) eqn:E.
  - rewrite has_char_append, percent_no_dot, IH; auto.
  - apply orb_false_iff in E as [_ E]. simpl. rewrite E, IH; auto.
Qed.

Lemma after_last_nochar c s : has_char c s = false -> after_last c s = s.
Proof.
  destruct s as [|d r]; [reflexivity|]. intros H. simpl in H |- *.
  apply orb_false_iff in H as [H1 H2]. now rewrite H2, H1.
Qed.

Lemma after_last_app c a b : has_char c b = true -> after_last c (a ++ b) = after_last c b.
Proof.
  intros H. induction a as [|d a IH]; [reflexivity|]. simpl.
  rewrite has_char_append, H, orb_true_r. exact IH.
Qed.

Lemma after_last_cons_nochar c d r :
  has_char c r = false -> after_last c (String d r) = if (d =? c)%char then r else String d r.
Proof. intros H. simpl. now rewrite H. Qed.

(** The part of a mangled path after its last slash has no dot. *)
Lemma mangle_last_no_dot pkg : has_char "." (after_last "/" (mangle pkg)) = false.
Proof.
  induction pkg as [|c r IH]; [reflexivity|]. cbn [mangle].
  destruct (has_char "/" r) eqn:Hr.
  - assert (Hm : has_char "/" (mangle r) = true) by now rewrite mangle_slash.
    destruct (always_escaped c || (c =? ".")%char && negb true).
    + rewrite after_last_app; auto.
    + change (String c (mangle r)) with (str1 c ++ mangle r). rewrite after_last_app; auto.
  - pose proof (mangle_no_dot_noslash r Hr) as Hd.
    assert (Hm : has_char "/" (mangle r) = false) by now rewrite mangle_slash.
    simpl negb. rewrite andb_true_r.
    destruct (always_escaped c || (c =? ".")%char) eqn:E.
    + rewrite after_last_nochar.
      * rewrite has_char_append, percent_no_dot, Hd. reflexivity.
      * rewrite has_char_append, Hm, orb_false_r. unfold percent. simpl.
        assert (forall n, (hex_digit n =? "/")%char = false) as Hh.
        { intros n. unfold hex_digit. do 16 (destruct n as [|n]; [reflexivity|]).
          simpl. destruct n; reflexivity. }
        now rewrite !Hh.
    + apply orb_false_iff in E as [_ E]. rewrite after_last_cons_nochar by auto.
      destruct (c =? "/")%char; auto. simpl. now rewrite E, Hd.
Qed.

(** Splitting "P.rest" when P's last element has no dot and rest has no slash. *)
Lemma split_handler_shape P rest :
  has_char "." (after_last "/" P) = false -> has_char "/" rest = false ->
  SplitHandlerPath (P ++ "." ++ rest) = mkHP (split "/" P) (split "." rest).
Proof.
  intros HP HR. unfold SplitHandlerPath.
  assert (Hs : split "/" (P ++ "." ++ rest) =
               (removelast (split "/" P) ++ [(after_last "/" P ++ "." ++ rest)%string])%list).
  { rewrite split_app. rewrite after_last_split.
    rewrite (split_no_sep "/" ("." ++ rest)) by (simpl; auto). reflexivity. }
  rewrite Hs, last_last, removelast_last.
  change ("." ++ rest) with (String "." rest).
  rewrite split_app_sep by auto. simpl. f_equal.
  rewrite after_last_split. apply removelast_last_split.
Qed.

Lemma join_no_slash l :
  Forall (fun x => has_char "/" x = false) l -> has_char "/" (join "." l) = false.
Proof.
  induction l as [|a l IH]; [reflexivity|]. intros H. inversion H; subst.
  destruct l as [|b l]; [now rewrite join_one|].
  rewrite join_cons, !has_char_append. rewrite H2. simpl. now apply IH.
Qed.

Lemma split_runtime_name pkg idents :
  idents <> [] -> Forall ident_like idents ->
  SplitHandlerPath (runtime_name pkg idents) = mkHP (split "/" (mangle pkg)) idents.
Proof.
  intros Hne HF. unfold runtime_name.
  rewrite split_handler_shape.
  - f_equal. change "." with (str1 "."). apply split_join; auto.
    eapply Forall_impl; [|exact HF]. intros a [H _]; auto.
  - apply mangle_last_no_dot.
  - apply join_no_slash. eapply Forall_impl; [|exact HF]. intros a [_ H]; auto.
Qed.

Lemma package_path_runtime pkg idents :
  idents <> [] -> Forall ident_like idents ->
  PackagePath (SplitHandlerPath (runtime_name pkg idents)) = mangle pkg.
Proof.
  intros. rewrite split_runtime_name by auto. unfold PackagePath. simpl.
  change "/" with (str1 "/"). apply join_split.
Qed.

Lemma func_name_runtime pkg f more :
  ident_like f -> Forall ident_like more ->
  FuncName (SplitHandlerPath (runtime_name pkg (f :: more))) = Ok f.
Proof.
  intros. rewrite split_runtime_name; [reflexivity|discriminate|constructor; auto].
Qed.

Lemma mangle_length pkg : String.length pkg <= String.length (mangle pkg).
Proof.
  induction pkg as [|c r IH]; [auto|]. cbn [mangle].
  destruct (always_escaped c || _); simpl; lia.
Qed.

Lemma mangle_id_iff pkg : mangle pkg = pkg <-> plain_pkg pkg = true.
Proof.
  induction pkg as [|c r IH]; [tauto|]. cbn [mangle plain_pkg].
  destruct (always_escaped c || _) eqn:E; simpl.
  - split; [|discriminate]. intros H. exfalso.
    apply (f_equal String.length) in H. simpl in H.
    pose proof (mangle_length r). lia.
  - rewrite <- IH. split; [injection 1; auto|congruence].
Qed.

(** ** Route creation *)
Lemma denied_spec deny i : denied deny (gi_path i) = false <-> allowed deny i.
Proof.
  unfold allowed. induction deny as [|d deny IH]; simpl.
  - split; [tauto|auto].
  - destruct (d (gi_path i)) eqn:E.
    + split; [discriminate|]. intros H. specialize (H d (or_introl eq_refl)). congruence.
    + rewrite IH. split.
      * intros H d' [<-|Hin]; auto.
      * intros H d' Hin. apply H; auto.
Qed.

Lemma create_ok rel deny infos routes routes' :
  CreateRoutes rel deny infos routes = (routes', None) <->
  exists rs, created rel deny infos rs /\ routes' = (routes ++ rs)%list.
Proof.
  split.
  - revert routes. induction infos as [|i is IH]; simpl; intros routes H.
    + injection H as <-. exists []. split; [constructor|now rewrite app_nil_r].
    + destruct (denied deny (gi_path i)) eqn:Ed.
      * destruct (IH _ H) as (rs & Hc & ->). exists rs. split; auto. constructor 3; auto.
        rewrite <- denied_spec. congruence.
      * unfold createRoute in H. destruct (rel (gi_file i)) as [p|] eqn:Er; [|discriminate].
        destruct (IH _ H) as (rs & Hc & ->). unfold AddRoute, newRoute.
        eexists. split; [constructor 2; eauto; now apply denied_spec|].
        now rewrite <- app_assoc.
  - intros (rs & Hc & ->). revert routes.
    induction Hc as [|i is rs p Ha Hr Hc IH|i is rs Ha Hc IH]; intros routes; simpl.
    + now rewrite app_nil_r.
    + apply denied_spec in Ha. rewrite Ha. unfold createRoute. rewrite Hr.
      unfold AddRoute, newRoute. rewrite IH, <- app_assoc. reflexivity.
    + rewrite <- denied_spec in Ha. destruct (denied deny (gi_path i)); [|congruence]. apply IH.
Qed.

Lemma create_err rel deny infos routes routes' e :
  CreateRoutes rel deny infos routes = (routes', Some e) ->
  exists pre i post rs,
    infos = (pre ++ i :: post)%list /\ created rel deny pre rs /\ routes' = (routes ++ rs)%list /\
    allowed deny i /\ rel (gi_file i) = None.
Proof.
  revert routes. induction infos as [|i is IH]; simpl; intros routes H; [discriminate|].
  destruct (denied deny (gi_path i)) eqn:Ed.
  - destruct (IH _ H) as (pre & j & post & rs & -> & Hc & -> & Ha & Hr).
    exists (i :: pre), j, post, rs. split; [reflexivity|].
    split; [|auto]. constructor 3; auto. rewrite <- denied_spec. congruence.
  - apply denied_spec in Ed. unfold createRoute in H.
    destruct (rel (gi_file i)) as [p|] eqn:Er.
    + destruct (IH _ H) as (pre & j & post & rs & -> & Hc & -> & Ha & Hr).
      exists (i :: pre), j, post. eexists. split; [reflexivity|].
      split; [constructor 2; eauto|]. split; [unfold AddRoute, newRoute; now rewrite <- app_assoc|auto].
    + injection H as <- <-. exists [], i, is, []. simpl. rewrite app_nil_r.
      repeat split; auto. constructor.
Qed.

Lemma created_total rel deny infos :
  (forall i, In i infos -> allowed deny i -> exists p, rel (gi_file i) = Some p) ->
  exists rs, created rel deny infos rs.
Proof.
  induction infos as [|i is IH]; intros H; [exists []; constructor|].
  destruct IH as [rs Hrs]; [intros; apply H; simpl; auto|].
  destruct (denied deny (gi_path i)) eqn:E.
  - exists rs. constructor 3; auto. rewrite <- denied_spec. congruence.
  - apply denied_spec in E. destruct (H i (or_introl eq_refl) E) as [p Hp].
    eexists. constructor 2; eauto.
Qed.

(** ** Components *)
Lemma comp_same_spec a b : comp_same a b = true <-> comp_key a = comp_key b.
Proof.
  unfold comp_same, comp_key. rewrite andb_true_iff, !String.eqb_eq. split.
  - now intros [-> ->].
  - injection 1; auto.
Qed.

Lemma existsb_comp_same x l : existsb (comp_same x) l = true <-> In (comp_key x) (map comp_key l).
Proof.
  rewrite existsb_exists, in_map_iff. split.
  - intros (y & Hy & E). apply comp_same_spec in E. eauto.
  - intros (y & E & Hy). exists y. split; auto. apply comp_same_spec. auto.
Qed.

Lemma addComponent1_eq prev x :
  addComponent1 prev x = if existsb (comp_same x) prev then prev else (prev ++ [x])%list.
Proof. destruct prev; reflexivity. Qed.

Lemma first_occ_seen seen seen' l out :
  (forall k, In k seen <-> In k seen') -> first_occ seen l out -> first_occ seen' l out.
Proof.
  intros H Hf. revert seen' H. induction Hf; intros seen' He.
  - constructor.
  - constructor 2; [rewrite <- He; auto|]. apply IHHf. intros k. simpl. now rewrite He.
  - constructor 3; [rewrite <- He; auto|]. auto.
Qed.

Lemma add_component_spec n prev :
  exists out, first_occ (map comp_key prev) n out /\ AddComponent prev n = (prev ++ out)%list.
Proof.
  revert prev. unfold AddComponent. induction n as [|x n IH]; intros prev; simpl.
  - exists []. split; [constructor|now rewrite app_nil_r].
  - rewrite addComponent1_eq. destruct (existsb (comp_same x) prev) eqn:E.
    + apply existsb_comp_same in E. destruct (IH prev) as (out & Hf & ->).
      exists out. split; auto. constructor 3; auto.
    + destruct (IH (prev ++ [x])%list) as (out & Hf & ->).
      exists (x :: out). split; [|now rewrite <- app_assoc].
      constructor 2.
      * intros Hin. apply existsb_comp_same in Hin. congruence.
      * eapply first_occ_seen; [|exact Hf]. intros k. rewrite map_app, in_app_iff. simpl. tauto.
Qed.

Lemma first_occ_nodup seen l out :
  first_occ seen l out -> NoDup (map comp_key out) /\ (forall k, In k (map comp_key out) -> ~ In k seen).
Proof.
  induction 1 as [|seen x l out Hn Hf [IH1 IH2]|seen x l out Hn Hf IH]; simpl; auto.
  - split; [constructor|tauto].
  - split.
    + constructor; auto. intros Hin. apply (IH2 _ Hin). left; auto.
    + intros k [<-|Hk]; auto. intros Hs. apply (IH2 _ Hk). right; auto.
Qed.

Lemma first_occ_keys seen l out :
  first_occ seen l out ->
  forall k, In k (map comp_key l) -> In k seen \/ In k (map comp_key out).
Proof.
  induction 1; simpl; [tauto| |]; intros k [<-|Hk]; auto.
  - destruct (IHfirst_occ _ Hk) as [[<-|?]|?]; auto.
Qed.

Lemma add_component_nodup n prev :
  NoDup (map comp_key prev) -> NoDup (map comp_key (AddComponent prev n)).
Proof.
  intros HN. destruct (add_component_spec n prev) as (out & Hf & ->).
  apply first_occ_nodup in Hf as [H1 H2]. rewrite map_app.
  induction prev as [|p prev IH]; simpl in *; auto.
  inversion HN; subst. constructor.
  - rewrite in_app_iff. intros [H|H]; auto. apply (H2 _ H). left; auto.
  - apply IH; auto. intros k Hk Hin. apply (H2 _ Hk). right; auto.
Qed.

Lemma add_component_idem n prev : AddComponent (AddComponent prev n) n = AddComponent prev n.
Proof.
  assert (forall l p, (forall k, In k (map comp_key l) -> In k (map comp_key p)) -> AddComponent p l = p) as H.
  { unfold AddComponent. induction l as [|x l IH]; intros p Hk; simpl; auto.
    rewrite addComponent1_eq.
    replace (existsb (comp_same x) p) with true.
    - apply IH. intros; apply Hk; simpl; auto.
    - symmetry. apply existsb_comp_same. apply Hk; simpl; auto. }
  apply H. intros k Hk. destruct (add_component_spec n prev) as (out & Hf & ->).
  rewrite map_app, in_app_iff. eapply first_occ_keys; eauto.
Qed.

(** ** Return types *)
Lemma ret_differs_spec a b : ret_differs a b = true <-> ret_key a <> ret_key b.
Proof.
  unfold ret_differs, ret_key.
  destruct (String.eqb (f_type (r_field a)) (f_type (r_field b))) eqn:E1;
  destruct (String.eqb (f_package (r_field a)) (f_package (r_field b))) eqn:E2;
  destruct (Z.eqb (r_status a) (r_status b)) eqn:E3;
  destruct (String.eqb (r_contentType a) (r_contentType b)) eqn:E4; simpl;
  rewrite ?String.eqb_eq, ?String.eqb_neq, ?Z.eqb_eq, ?Z.eqb_neq in *; split; try congruence;
  try (intros _ H; injection H; intros; congruence).
Qed.

Lemma ret_differs_false a b : ret_differs a b = false <-> ret_key a = ret_key b.
Proof.
  unfold ret_differs, ret_key. rewrite !orb_false_iff, !negb_false_iff, !String.eqb_eq, Z.eqb_eq.
  split.
  - now intros [[[-> ->] ->] ->].
  - intros H. injection H. auto.
Qed.

Lemma addReturn1_eq prev x :
  addReturn1 prev x =
  if match prev with [] => true | _ => existsb (ret_differs x) prev end
  then (prev ++ [x])%list else prev.
Proof. destruct prev; reflexivity. Qed.

Lemma addReturn1_kept prev x :
  addReturn1 prev x = prev <-> prev <> [] /\ (forall y, In y prev -> ret_key y = ret_key x).
Proof.
  rewrite addReturn1_eq. destruct prev as [|p prev].
  - split; [discriminate|tauto].
  - destruct (existsb (ret_differs x) (p :: prev)) eqn:E.
    + split.
      * intros H. apply (f_equal (@List.length _)) in H. rewrite app_length in H. simpl in H. lia.
      * intros [_ H]. apply existsb_exists in E as (y & Hy & D). apply ret_differs_spec in D.
        exfalso. apply D. symmetry. auto.
    + split; auto. intros _. split; [discriminate|]. intros y Hy.
      symmetry. apply ret_differs_false.
      destruct (ret_differs x y) eqn:D; auto.
      exfalso. assert (existsb (ret_differs x) (p :: prev) = true); [|congruence].
      apply existsb_exists; eauto.
Qed.

Lemma add_return_prefix n prev : exists ext, AddReturnType prev n = (prev ++ ext)%list /\ incl ext n.
Proof.
  unfold AddReturnType. revert prev. induction n as [|x n IH]; intros prev; simpl.
  - exists []. split; [now rewrite app_nil_r|apply incl_refl].
  - rewrite addReturn1_eq.
    destruct (match prev with [] => true | _ => existsb (ret_differs x) prev end).
    + destruct (IH (prev ++ [x])%list) as (ext & -> & Hi). exists (x :: ext).
      rewrite <- app_assoc. split; auto.
      intros y [<-|Hy]; [left; auto|right; auto].
    + destruct (IH prev) as (ext & -> & Hi). exists ext. split; auto.
      intros y Hy. right. auto.
Qed.

Lemma addReturn1_present prev x : In (ret_key x) (map ret_key (addReturn1 prev x)).
Proof.
  rewrite addReturn1_eq. destruct prev as [|p prev]; simpl; auto.
  destruct (ret_differs x p || existsb (ret_differs x) prev) eqn:E; simpl.
  - right. rewrite map_app, in_app_iff. simpl; auto.
  - left. assert (addReturn1 (p :: prev) x = p :: prev) as H.
    { rewrite addReturn1_eq. simpl. now rewrite E. }
    apply addReturn1_kept in H as [_ H]. apply H. left; auto.
Qed.

Lemma add_return_present n prev x :
  In x n -> In (ret_key x) (map ret_key (AddReturnType prev n)).
Proof.
  unfold AddReturnType. revert prev. induction n as [|y n IH]; simpl; [tauto|].
  intros prev [<-|Hin]; auto.
  destruct (add_return_prefix n (addReturn1 prev y)) as (ext & E & _).
  unfold AddReturnType in E. rewrite E, map_app, in_app_iff. left. apply addReturn1_present.
Qed.

Lemma add_return_dup prev x y z :
  In y prev -> In z prev -> ret_key y <> ret_key z -> addReturn1 prev x = (prev ++ [x])%list.
Proof.
  intros Hy Hz Hne. rewrite addReturn1_eq. destruct prev as [|p prev]; auto.
  replace (existsb (ret_differs x) (p :: prev)) with true; auto.
  symmetry. apply existsb_exists.
  destruct (ret_differs x y) eqn:E.
  - exists y; auto.
  - exists z. split; auto. apply ret_differs_spec. intros Ez.
    assert (~ ret_key x <> ret_key y) as Hn by (rewrite <- ret_differs_spec; congruence).
    apply Hn. congruence.
Qed.

(** ** Routes *)
Lemma replace_route_spec r routes :
  (~ In (route_key r) (map route_key routes) /\ ReplaceRoute r routes = routes) \/
  (exists pre old post, routes = (pre ++ old :: post)%list /\ route_key old = route_key r /\
     ~ In (route_key r) (map route_key pre) /\ ReplaceRoute r routes = (pre ++ r :: post)%list).
Proof.
  induction routes as [|x routes IH]; simpl.
  - left; auto.
  - destruct (String.eqb (rt_path x) (rt_path r) && String.eqb (rt_method x) (rt_method r)) eqn:E.
    + apply andb_true_iff in E as [E1 E2]. apply String.eqb_eq in E1, E2.
      right. exists [], x, routes. unfold route_key. simpl. rewrite E1, E2. auto.
    + assert (route_key x <> route_key r) as Hne.
      { unfold route_key. intros H. injection H as H1 H2. rewrite H1, H2, !String.eqb_refl in E. discriminate. }
      destruct IH as [[Hn ->]|(pre & old & post & -> & Hk & Hn & ->)].
      * left. split; auto. intros [H|H]; auto.
      * right. exists (x :: pre), old, post. simpl. split; auto. split; auto. split; auto.
        intros [H|H]; auto.
Qed.
