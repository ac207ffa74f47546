(** Routes stay the same routes, whatever polite custom functions record. *)
From Coq Require Import List String Ascii Bool ZArith Arith Lia.
From Verif Require Import BaseStr BaseMap M_Types M_Collect M_Paths M_TypeTrav M_Parse S_Collect S_Parse S_Custom P_Parse P_Parse2 P_Parse3.
Import ListNotations.
Local Open Scope string_scope.

Lemma identity_trans a b c : same_identity a b -> same_identity b c -> same_identity a c.
Proof. unfold same_identity. intuition congruence. Qed.

(** All routes stay the same routes, and no component is lost. *)
Definition heap_same (s s' : pstate) : Prop :=
  (forall p r, nth_error (ps_heap s) p = Some r ->
   exists r', nth_error (ps_heap s') p = Some r' /\ same_identity r r') /\ grows (ps_comps s) (ps_comps s').

Lemma heap_same_refl s : heap_same s s.
Proof. split; [|apply grows_refl]. intros p r H. exists r. split; auto. apply same_identity_refl. Qed.
Lemma heap_same_trans a b c : heap_same a b -> heap_same b c -> heap_same a c.
Proof.
  intros [H1 G1] [H2 G2]. split; [|eapply grows_trans; eauto].
  intros p r H. destruct (H1 p r H) as (r1 & E1 & X1). destruct (H2 p r1 E1) as (r2 & E2 & X2).
  exists r2. split; auto. eapply identity_trans; eauto.
Qed.
Lemma heap_same_file s f : heap_same s (set_file f s).
Proof. apply (heap_same_refl s). Qed.
Lemma heap_same_comps s l : heap_same s (add_comps l s).
Proof. split; [apply (heap_same_refl s)|apply register_grows]. Qed.
Lemma heap_same_store s p r x :
  nth_error (ps_heap s) p = Some r -> same_identity r x -> heap_same s (store p x s).
Proof.
  intros H X. split; [|apply grows_refl]. intros q r' Hq. unfold store. simpl.
  destruct (Nat.eq_dec p q) as [->|N].
  - rewrite Hq in H. injection H as ->. exists x. split; auto. eapply nth_set_nth; eauto.
  - exists r'. rewrite nth_set_other by auto. split; auto. apply same_identity_refl.
Qed.

Lemma build_same name c ops0 ops m stops cur s s' l :
  method name = Some (ops, m, stops) -> build c ops0 m cur s = Ok (s', l) -> heap_same s s'.
Proof.
  intros Hm. unfold build. destruct (snd (eval_ops _ _ _ _)) as [v| | |]; try discriminate.
  - destruct (m v) as [change|] eqn:Ec.
    + destruct cur as [p|]; [|discriminate].
      destruct (nth_error _ p) as [r|] eqn:Er; [|discriminate].
      intros H. injection H as <- <-.
      eapply heap_same_trans; [|eapply heap_same_store; [exact Er|]].
      * apply heap_same_comps.
      * exact (proj1 (method_extends _ _ _ _ _ _ r Hm Ec)).
    + intros H. injection H as <- <-. apply heap_same_comps.
  - intros H. injection H as <- <-. apply heap_same_comps.
Qed.

Lemma heap_same_alloc s r : heap_same s (alloc r s).
Proof.
  split; [|apply grows_refl]. intros p x H. exists x. split; [|apply same_identity_refl]. unfold alloc. cbn.
  rewrite nth_error_app1; auto. apply nth_error_Some. congruence.
Qed.
Lemma customs_same cs ctx c cur : Forall polite cs -> forall ops s p s', customs cs ctx c cur ops s = CuTaken p s' -> heap_same s s'.
Proof.
  induction 1 as [|cu cs P F IH]; intros ops s p s' H; cbn [customs] in H; [discriminate|].
  destruct (cu ctx c (ps_file s) (deref cur s)) as [lo| |r|r] eqn:E; try discriminate.
  - eauto.
  - destruct cur as [q|]; injection H as <- <-; [|apply heap_same_alloc]. cbn [deref] in E.
    destruct (nth_error (ps_heap s) q) as [r0|] eqn:Er.
    + eapply heap_same_store; [exact Er|]. eapply P; eauto.
    + split; [|apply grows_refl]. intros p x H. exists x. split; [|apply same_identity_refl]. unfold store. cbn [ps_heap].
      destruct (Nat.eq_dec q p) as [->|N]; [congruence|]. now rewrite nth_set_other.
  - injection H as <- <-. apply heap_same_alloc.
Qed.

Section Customs.
Context (cs : list customFunc) (HP : Forall polite cs).
Lemma inspect_same again ctx here n :
  (forall g cur f s s' e, again g cur f s = Ok (s', e) -> heap_same s s') ->
  forall s l s' l', inspect (visit again cs ctx here) n s l = Ok (s', l') -> heap_same s s'.
Proof.
  intros Ha. induction n as [c ch IH] using node_ind'. intros s l s' l' H.
  rewrite inspect_eq in H.
  assert (W : forall s l s' l', walk (visit again cs ctx here) ch s l = Ok (s', l') -> heap_same s s').
  { clear s l s' l' H. induction ch as [|n ns IHns]; intros s l s' l' H.
    - simpl in H. injection H as <- <-. apply heap_same_refl.
    - rewrite walk_cons in H. inversion IH as [|? ? Hn Hns]; subst.
      destruct (inspect (visit again cs ctx here) n s l) as [[s1 l1]| | |] eqn:E; try discriminate.
      cbn [bind fst snd] in H. eapply heap_same_trans; [eapply Hn; eauto|eapply IHns; eauto]. }
  destruct c as [c|].
  - destruct (visit again cs ctx here c s l) as [[[s1 l1] b]| | |] eqn:E; try discriminate.
    cbn [bind fst snd] in H.
    assert (L1 : heap_same s s1).
    { unfold visit in E.
      destruct (customs cs ctx c (l_cur l) [] s) as [|p s2|ops] eqn:EC.
      { injection E as <- <- <-. apply heap_same_refl. }
      { injection E as <- <- <-. eapply customs_same; eauto. }
      clear EC. destruct (ArgIndex ctx c).
      - destruct (c_decl c (ps_file s)) as [|nf [g|]].
        + injection E as <- <- <-. apply heap_same_refl.
        + destruct (again g (l_cur l) _ _) as [[s2 e]| | |] eqn:E2; try discriminate.
          cbn [bind fst snd] in E. apply Ha in E2.
          assert (X : heap_same s s2).
          { eapply heap_same_trans; [|exact E2]. destruct nf; [apply heap_same_file|apply heap_same_refl]. }
          destruct e; injection E as <- <- <-; auto.
        + injection E as <- <- <-. destruct nf; [apply heap_same_file|apply heap_same_refl].
      - destruct (c_obj c (ps_file s)) as [e|name [rt|]]; try (injection E as <- <- <-; apply heap_same_refl).
        destruct (String.eqb rt ginContext); try (injection E as <- <- <-; apply heap_same_refl).
        destruct (method name) as [[[mops m] stops]|] eqn:Em; try (injection E as <- <- <-; apply heap_same_refl).
        destruct (build c _ m (l_cur l) s) as [[s2 l2]| | |] eqn:E2; try discriminate.
        cbn [bind fst snd] in E. injection E as <- <- <-. eapply build_same; eauto. }
    destruct b; [eapply heap_same_trans; eauto|injection H as <- <-; auto].
  - cbn [bind fst snd] in H. eapply W; exact H.
Qed.

Lemma function_same n : forall funcs g cur f level s s' e,
  parseFunction n funcs cs g cur f level s = Ok (s', e) -> heap_same s s'.
Proof.
  induction n as [|n IH]; intros funcs g cur f level s s' e H; [discriminate|].
  rewrite parseFunction_eq in H. cbn zeta in H.
  match type of H with bind ?x _ = _ => destruct x as [s1| | |] eqn:E1; try discriminate end.
  assert (X1 : heap_same s s1).
  { destruct (Nat.eqb level 0).
    - destruct (String.eqb _ _).
      + injection E1 as <-. apply heap_same_file.
      + destruct cur as [p|]; [|discriminate]. destruct (nth_error _ p) as [r|] eqn:Er; [|discriminate].
        injection E1 as <-. eapply heap_same_trans; [|eapply heap_same_store; [exact Er|apply (proj1 (extends_doc _ _))]].
        apply heap_same_file.
    - injection E1 as <-. apply heap_same_file. }
  cbn [bind] in H. destruct (fn_ctx (funcs g) (ps_file s1)) as [ctx| | |]; try discriminate.
  cbn [bind] in H. destruct (String.eqb ctx ""); [injection H as <- <-; auto|].
  destruct (inspect _ _ s1 _) as [[s2 l2]| | |] eqn:E; try discriminate.
  cbn [bind fst snd] in H.
  assert (X : heap_same s s2).
  { eapply heap_same_trans; [exact X1|]. eapply inspect_same; [|exact E].
    unfold deeper. intros; eapply IH; eauto. }
  destruct (l_err l2); [injection H as <- <-; auto|].
  destruct (deref _ _); [|discriminate]. destruct (Nat.eqb _ 0 && _); injection H as <- <-; auto.
Qed.

(** ** Routes *)
Lemma parse0_same fuel prog g s s' :
  pr_customs prog = cs -> parse0 fuel prog g s = Ok s' -> heap_same s s'.
Proof.
  intros Hc. unfold parse0. rewrite Hc. intros H.
  destruct (parseFunction _ _ _ _ _ _ _ _) as [[s1 e]| | |] eqn:E; try discriminate.
  cbn [bind fst] in H. injection H as <-. eapply function_same; eauto.
Qed.

Lemma inline_same fuel prog line l : pr_customs prog = cs ->
  forall s s', inline fuel prog line l s = Ok s' -> heap_same s s'.
Proof.
  intros Hc. induction l as [a g inner IH] using lit_ind'. intros s s' H.
  rewrite inline_eq in H. destruct (Z.eqb _ _); [eapply parse0_same; eauto|].
  revert s s' H. induction inner as [|l inner IHi]; intros s s' H.
  - injection H as <-. apply heap_same_refl.
  - cbn [inlines] in H. inversion IH as [|? ? Hl Hr]; subst.
    destruct (inline fuel prog line l s) as [s1| | |] eqn:E; try discriminate. cbn [bind] in H.
    eapply heap_same_trans; [eapply Hl; eauto|eapply IHi; eauto].
Qed.

Lemma inlines_same fuel prog line ls : pr_customs prog = cs ->
  forall s s', inlines fuel prog line ls s = Ok s' -> heap_same s s'.
Proof.
  intros Hc. induction ls as [|l inner IHi]; intros s s' H.
  - injection H as <-. apply heap_same_refl.
  - cbn [inlines] in H.
    destruct (inline fuel prog line l s) as [s1| | |] eqn:E; try discriminate. cbn [bind] in H.
    eapply heap_same_trans; [eapply inline_same; eauto|eapply IHi; eauto].
Qed.

Lemma decls_same fuel prog name line ds : pr_customs prog = cs ->
  forall s s', decls fuel prog name line ds s = Ok s' -> heap_same s s'.
Proof.
  intros Hc. induction ds as [|d ds IH]; intros s s' H.
  - injection H as <-. apply heap_same_refl.
  - cbn [decls] in H.
    match type of H with bind ?x _ = _ => destruct x as [s1| | |] eqn:E1; try discriminate end.
    cbn [bind] in H. eapply heap_same_trans; [|eapply IH; eauto].
    destruct (String.eqb _ _); [|injection E1 as <-; apply heap_same_refl].
    destruct (Z.eqb _ _); [|eapply inlines_same; eauto].
    destruct (nth_error (ps_heap s) 0) as [r|] eqn:Er; [|discriminate].
    eapply heap_same_trans; [eapply heap_same_store; [exact Er|exact (proj1 (extends_operationId (pr_lowerCamel prog name) r))]|].
    eapply parse0_same; eauto.
Qed.

Lemma parseRoute_same fuel prog r comps r' comps' :
  pr_customs prog = cs -> parseRoute fuel prog r comps = Ok (r', comps') ->
  same_identity r r' /\ grows comps comps'.
Proof.
  intros Hc. unfold parseRoute.
  destruct (hp_handlerParts _) as [|fn parts]; [discriminate|].
  destruct (pr_package prog _) as [files|]; [|discriminate].
  destruct (find_file files _) as [[f ds]|]; [|discriminate].
  intros H.
  destruct (decls _ _ _ _ _ _) as [s1| | |] eqn:E; try discriminate. cbn [bind] in H.
  destruct (nth_error (ps_heap s1) 0) as [r1|] eqn:Er; [|discriminate]. injection H as <- <-.
  apply decls_same in E; auto. destruct E as [E G].
  destruct (E 0 _ eq_refl) as (r2 & E2 & X). rewrite Er in E2. injection E2 as <-.
  split; auto.
Qed.

Lemma parse_from_same fuel prog (Hc : pr_customs prog = cs) : forall todo done comps routes' comps' e,
  NoDup (map rkey (done ++ todo)) ->
  parse_from fuel prog (List.length todo) (List.length done) (done ++ todo) comps = Ok (routes', comps', e) ->
  exists out rest, routes' = (done ++ out ++ rest)%list /\
    (exists bef, todo = (bef ++ rest)%list /\
      Forall2 (fun r r' => exists c c', parseRoute fuel prog r c = Ok (r', c')) bef out) /\
    (e = None -> rest = []) /\ (e <> None -> rest <> []).
Proof.
  induction todo as [|r todo IH]; intros dn comps routes' comps' e ND H.
  - cbn in H. injection H as <- <- <-. exists [], []. rewrite !app_nil_r. split; auto.
    split; [exists []; split; auto|]. split; congruence.
  - cbn [List.length parse_from] in H. rewrite nth_error_app2, Nat.sub_diag in H by lia. cbn [nth_error] in H.
    destruct (parseRoute fuel prog r comps) as [[r1 c1]|err| |] eqn:E; try discriminate.
    + cbn [fst snd] in H.
      destruct (parseRoute_same _ _ _ _ _ _ Hc E) as [Id _].
      destruct Id as (_ & _ & _ & Hm & Hp).
      assert (Hk : rkey r1 = rkey r) by (unfold rkey; congruence).
      rewrite ReplaceRoute_at in H; auto.
      2:{ intros x Hx Hxr. rewrite map_app in ND. cbn [map] in ND. apply NoDup_remove_2 in ND.
          apply ND. apply in_app_iff. left. rewrite <- Hxr. now apply in_map. }
      replace (dn ++ r1 :: todo)%list with ((dn ++ [r1]) ++ todo)%list in H
        by (rewrite <- app_assoc; reflexivity).
      replace (S (List.length dn)) with (List.length (dn ++ [r1])) in H
        by (rewrite app_length; simpl; lia).
      apply IH in H.
      * destruct H as (out & rest & -> & (bef & -> & F) & He).
        exists (r1 :: out), rest. split; [now rewrite <- !app_assoc|].
        split; [|exact He]. exists (r :: bef). split; [reflexivity|]. constructor; eauto.
      * rewrite <- app_assoc, map_app in *. cbn [app map] in *. now rewrite Hk.
    + injection H as <- <- <-. exists [], (r :: todo). split; auto.
      split; [exists []; split; auto|]. split; [congruence|discriminate].
Qed.
End Customs.
