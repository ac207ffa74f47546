(** The requests an Azure function serves: C80. *)
From Coq Require Import List String Ascii Bool ZArith Arith Lia.
From Verif Require Import BaseStr BaseMap M_Types M_Collect M_Paths S_Paths P_Paths M_OpenAPI M_Parse M_Clean M_FS M_Service S_Azure P_Azure Props_Azure S_Served.
Import ListNotations.
Local Open Scope string_scope.

Lemma cut_at (c : ascii) a b a' b' : has_char c a = false -> has_char c a' = false -> a ++ String c b = a' ++ String c b' -> a = a' /\ b = b'.
Proof.
  revert a'. induction a as [|x a IH]; intros [|y a'] H H' E; cbn in *.
  - injection E as ->. auto.
  - injection E as <- _. rewrite Ascii.eqb_refl in H'. discriminate.
  - injection E as -> _. rewrite Ascii.eqb_refl in H. discriminate.
  - injection E as <- E. apply orb_false_iff in H as (_ & H). apply orb_false_iff in H' as (_ & H'). destruct (IH a' H H' E) as (-> & ->). auto.
Qed.
Lemma markers_append a b : count_markers (a ++ b) = count_markers a + count_markers b.
Proof. induction a as [|c a IH]; cbn [append count_markers]; auto. rewrite IH. lia. Qed.
Lemma name_plain lit m name seg : seg_has lit m name seg -> gin_segment seg ->
  has_char ":" name = false /\ has_char "{" lit = false /\ has_char "{" name = false.
Proof.
  intros (-> & M & _ & L1 & L2) (C & B & _). rewrite markers_append in C. cbn [count_markers] in C.
  assert (X : (if Ascii.eqb m ":" || Ascii.eqb m "*" then 1 else 0) = 1) by (destruct M as [->| ->]; reflexivity). rewrite X in C.
  assert (Z : count_markers name = 0) by lia. split.
  - clear - Z. induction name as [|c n IH]; auto. cbn [count_markers has_char] in *. destruct (Ascii.eqb c ":"); [cbn in Z; lia|]. apply IH. destruct (Ascii.eqb c "*"); cbn in Z; lia.
  - rewrite has_char_append in B. cbn [has_char] in B. apply orb_false_iff in B as (B1 & B2). apply orb_false_iff in B2 as (_ & B2). auto.
Qed.

Lemma served segs segs' : seg_mapped azure_form segs segs' -> Forall gin_segment segs ->
  (forall s lit name, In s segs -> ~ seg_has lit "*" name s) ->
  forall us, azure_serves segs' us <-> exists vs, gin_serves segs us vs /\ Forall alphabetic vs.
Proof.
  induction 1 as [|lit m name seg segs segs' H M IH|seg segs segs' H M IH]; intros G NC us.
  - split; [intros A; inversion A; subst; exists []; split; constructor|]. intros (vs & S & _). inversion S; constructor.
  - inversion G as [|? ? G1 G2]; subst. destruct (name_plain _ _ _ _ H G1) as (Nn & Nl & Nb).
    assert (m = ":"%char) as ->.
    { destruct (proj1 (proj2 H)) as [E|E]; auto. rewrite E in H. elim (NC seg lit name (or_introl eq_refl) H). }
    assert (F : azure_form (String ":" name) = "{" ++ name ++ ":" ++ "alpha}") by reflexivity. rewrite F.
    assert (IH' := IH G2 (fun s l n I => NC s l n (or_intror I))). split.
    + intros A. inversion A as [|s ts us' B A' E|lit' name' v ts us' B N' V A' E|name' N' E|name' v N' V E]; subst.
      * exfalso. rewrite has_char_append in B. cbn in B. now rewrite orb_true_r in B.
      * change ("{" ++ name ++ ":" ++ "alpha}") with (String "{" (name ++ ":" ++ "alpha}")) in E.
        change ("{" ++ name' ++ ":" ++ "alpha}") with (String "{" (name' ++ ":" ++ "alpha}")) in E.
        apply cut_at in E as (-> & E); auto. apply IH' in A' as (vs & S & AV). exists (v :: vs). split; [|now constructor].
        apply (gs_param lit name); auto. apply V.
      * exfalso. change ("{" ++ name ++ ":" ++ "alpha}") with (String "{" (name ++ ":" ++ "alpha}")) in E.
        apply (cut_at "{" "" (name' ++ ":" ++ "alpha?}") lit (name ++ ":" ++ "alpha}") eq_refl Nl) in E as (_ & E).
        apply (cut_at ":" name' "alpha?}" name "alpha}" N' Nn) in E as (_ & E). discriminate.
      * exfalso. change ("{" ++ name ++ ":" ++ "alpha}") with (String "{" (name ++ ":" ++ "alpha}")) in E.
        apply (cut_at "{" "" (name' ++ ":" ++ "alpha?}") lit (name ++ ":" ++ "alpha}") eq_refl Nl) in E as (_ & E).
        apply (cut_at ":" name' "alpha?}" name "alpha}" N' Nn) in E as (_ & E). discriminate.
    + intros (vs & S & AV). inversion S as [|s segs0 us' vs' Hn S'|lit' name' seg0 segs0 v us' vs' H' V S'|name' seg0 us' H' N']; subst.
      * exfalso. eapply Hn; eauto.
      * destruct (seg_has_fun _ _ _ _ _ _ _ H H') as (-> & _ & ->). inversion AV; subst. apply az_param; auto. apply IH'. eauto.
      * exfalso. eapply NC; [now left|eauto].
  - inversion G as [|? ? G1 G2]; subst. assert (IH' := IH G2 (fun s l n I => NC s l n (or_intror I))).
    destruct G1 as (_ & B & _). split.
    + intros A. inversion A as [|s ts us' B' A' E|lit' name' v ts us' B' N' V A' E|name' N' E|name' v N' V E]; subst.
      * apply IH' in A' as (vs & S & AV). exists vs. split; auto. now apply gs_literal.
      * exfalso. rewrite has_char_append in B. cbn in B. now rewrite orb_true_r in B.
      * discriminate B.
      * discriminate B.
    + intros (vs & S & AV). inversion S as [|s segs0 us' vs' Hn S'|lit' name' seg0 segs0 v us' vs' H' V S'|name' seg0 us' H' N']; subst.
      * apply az_literal; auto. apply IH'. eauto.
      * exfalso. eapply H; eauto.
      * exfalso. eapply H; eauto.
Qed.

Lemma mapped_no_slash segs segs' : seg_mapped azure_form segs segs' -> Forall (fun s => has_char "/" s = false) segs -> Forall (fun s => has_char "/" s = false) segs'.
Proof.
  induction 1 as [|lit m name seg segs segs' H M IH|seg segs segs' H M IH]; intros F; inversion F as [|? ? F1 F2]; subst; constructor; auto.
  destruct H as (-> & [->| ->] & _); rewrite has_char_append in F1; cbn [has_char] in F1; apply orb_false_iff in F1 as (F1 & F3); apply orb_false_iff in F3 as (_ & F3).
  - change (azure_form (String ":" name)) with ("{" ++ name ++ ":alpha}"). rewrite !has_char_append, F1, F3. reflexivity.
  - change (azure_form (String "*" name)) with ("{" ++ name ++ ":alpha?}"). rewrite !has_char_append, F1, F3. reflexivity.
Qed.

(** C80, for routes without a catch-all that are converted as C46 says: the function serves exactly the requests gin serves in which
    every parameter consists of letters.  Missing: all other requests (refuted below). *)
Theorem C80_served_partial :
  forall r us,
    gin_path (rt_path r) -> rt_pathParams r = ExtractParamsFromPath (rt_path r) -> distinct_from_constraints (rt_path r) ->
    (forall s lit name, In s (split "/" (rt_path r)) -> ~ seg_has lit "*" name s) ->
    (azure_serves (split "/" (convertRoute r)) us <-> exists vs, gin_serves (split "/" (rt_path r)) us vs /\ Forall alphabetic vs).
Proof.
  intros r us G E D NC. destruct (C46_form_exists (rt_path r)) as (segs' & M & _).
  rewrite (C46_converted_partial r [] segs' G) by (auto; rewrite ?List.app_nil_r; auto; intros x []).
  change "/" with (str1 "/") at 1. rewrite split_join.
  - now apply served.
  - intros Z. subst. pose proof (split_not_nil "/" (rt_path r)) as N. inversion M. congruence.
  - eapply mapped_no_slash; [exact M|apply split_no_char].
Qed.
Print Assumptions C80_served_partial.

Definition item_route : Route := azure_route "main.Item" "GET" "/items/:id".
Lemma item_segment : seg_has "" ":" "id" ":id".
Proof. repeat split; auto. now left. discriminate. Qed.
Lemma plain_segment s : has_char ":" s = false -> has_char "*" s = false -> forall lit m name, ~ seg_has lit m name s.
Proof.
  intros A B lit m name (-> & [->| ->] & _); rewrite has_char_append in *; cbn in *; rewrite ?orb_true_r in *; discriminate.
Qed.

Lemma item_no_rest : forall s lit name, In s [""; "items"; ":id"] -> ~ seg_has lit "*" name s.
Proof.
  intros s lit name I K. destruct I as [E|[E|[E|[]]]]; subst s.
  - elim (plain_segment "" eq_refl eq_refl _ _ _ K).
  - elim (plain_segment "items" eq_refl eq_refl _ _ _ K).
  - destruct (seg_has_fun _ _ _ _ _ _ _ K item_segment) as (_ & M & _). discriminate M.
Qed.
Lemma gin_literal s segs us vs : has_char ":" s = false -> has_char "*" s = false -> gin_serves (s :: segs) us vs -> exists us', us = s :: us' /\ gin_serves segs us' vs.
Proof.
  intros A B S. inversion S as [|? ? us' ? _ S'|? ? ? ? ? ? ? H|? ? ? H]; subst.
  - eauto.
  - elim (plain_segment _ A B _ _ _ H).
  - elim (plain_segment _ A B _ _ _ H).
Qed.
Lemma gin_param lit name seg segs us vs : seg_has lit ":" name seg -> gin_serves (seg :: segs) us vs ->
  exists v us' vs', us = (lit ++ v) :: us' /\ vs = v :: vs' /\ gin_serves segs us' vs'.
Proof.
  intros H S. inversion S as [|? ? ? ? N _|lit' name' ? ? v us' vs' H' V S'|? ? ? H']; subst.
  - elim (N _ _ _ H).
  - destruct (seg_has_fun _ _ _ _ _ _ _ H H') as (-> & _ & ->). eauto 6.
  - destruct (seg_has_fun _ _ _ _ _ _ _ H H') as (_ & M & _). discriminate M.
Qed.

(** C80, refuted: an item with a number is served by gin and not by the function. *)
Theorem C80_refuted :
  exists r us vs,
    gin_path (rt_path r) /\ rt_pathParams r = ExtractParamsFromPath (rt_path r) /\
    gin_serves (split "/" (rt_path r)) us vs /\ ~ azure_serves (split "/" (convertRoute r)) us.
Proof.
  exists item_route, [""; "items"; "42"], ["42"]. split; [repeat constructor|]. split; [reflexivity|]. split.
  - change (split "/" (rt_path item_route)) with [""; "items"; ":id"]. do 2 (apply gs_literal; [now apply plain_segment|]).
    apply (gs_param "" "id" ":id" [] "42" [] []); [apply item_segment|discriminate|constructor].
  - change (split "/" (convertRoute item_route)) with [""; "items"; "{id:alpha}"]. intros A.
    apply (served [""; "items"; ":id"]) in A.
    + destruct A as (vs & S & AV). apply gin_literal in S as (u1 & E1 & S); auto. injection E1 as <-.
      apply gin_literal in S as (u2 & E2 & S); auto. injection E2 as <-.
      apply (gin_param "" "id" ":id") in S as (v & u3 & vs' & E3 & -> & _); [|apply item_segment].
      cbn in E3. injection E3 as <- _. apply Forall_inv in AV as (_ & AV). cbn [all_letters] in AV. destruct AV as ([L|L] & _); vm_compute in L; lia.
    + apply sm_plain; [now apply plain_segment|]. apply sm_plain; [now apply plain_segment|].
      apply (sm_param azure_form "" ":" "id" ":id" [] [] item_segment). constructor.
    + repeat constructor.
    + apply item_no_rest.
Qed.
Print Assumptions C80_refuted.

(** A route, a request with letters and one with others, under the hypotheses of C80_served_partial. *)
Example C80_nontrivial :
  gin_path (rt_path item_route) /\ rt_pathParams item_route = ExtractParamsFromPath (rt_path item_route) /\ distinct_from_constraints (rt_path item_route) /\
  (forall s lit name, In s (split "/" (rt_path item_route)) -> ~ seg_has lit "*" name s) /\
  azure_serves (split "/" (convertRoute item_route)) [""; "items"; "pen"].
Proof.
  split; [repeat constructor|]. split; [reflexivity|]. split; [|split].
  - intros ps P i m name H Hm. change (split "/" (rt_path item_route)) with [""; "items"; ":id"] in P.
    assert (Q : seg_params [""; "items"; ":id"] [(":"%char, "id")]).
    { do 2 (apply sp_plain; [now apply plain_segment|]). eapply sp_param; [apply item_segment|constructor]. }
    rewrite (seg_params_fun _ _ _ P Q) in H. destruct i; discriminate.
  - apply item_no_rest.
  - change (split "/" (convertRoute item_route)) with [""; "items"; "" ++ "{" ++ "id" ++ ":" ++ "alpha}"].
    do 2 (apply az_literal; [reflexivity|]). apply (az_param "" "id" "pen"); [reflexivity|reflexivity| |constructor].
    split; [discriminate|]. cbn. unfold letter. vm_compute. lia.
Qed.
