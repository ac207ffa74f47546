(** What is true of everything registered while handlers are analysed. *)
From Coq Require Import List String Ascii Bool ZArith Arith Lia.
From Verif Require Import BaseStr M_Types M_Paths M_Tags M_Collect S_Collect P_Collect M_TypeTrav P_TypeTrav M_Parse S_Parse P_Parse P_Parse2 P_Parse3.
Import ListNotations.
Local Open Scope string_scope.

Local Arguments method : simpl never.
Local Arguments ParseResultToField : simpl never.

(** The calls of a tree. *)
Inductive occurs (c : call) : node -> Prop :=
| oc_here ch : occurs c (Node (Some c) ch)
| oc_child x n ch : In n ch -> occurs c n -> occurs c (Node x ch).

Lemma eval_ops_in f args ops : forall i x, In x (fst (eval_ops f args i ops)) -> exists a, In a args /\ In x (fst (a_result a f)).
Proof.
  induction ops as [|op ops IH]; intros i x H; [destruct H|]. cbn [eval_ops] in H.
  apply wbind_in in H as [H|(v & _ & H)].
  - destruct op; cbn in H; try now destruct H.
    + destruct (nth_error args i) as [a|]; destruct H.
    + destruct (nth_error args i) as [a|] eqn:E; [|destruct H]. apply nth_error_In in E.
      apply wbind_in in H as [H|(s & _ & H)]; [eauto|destruct H].
    + destruct (nth_error args i) as [a|]; destruct H.
  - apply wbind_in in H as [H|(vs & _ & H)]; [eauto|destruct H].
Qed.

Section Kept.
  Context (Q : list Field -> Prop) (fine : Result -> Prop).
  Hypothesis HQ : forall c x, Q c -> fine x -> Q (addComponent c x).

  Lemma register_kept calls : forall c, Q c -> (forall x, In x calls -> fine x) -> Q (register c calls).
  Proof.
    induction calls as [|x calls IH]; intros c H F; [exact H|]. apply IH; [apply HQ; auto; apply F; now left|].
    intros y Hy. apply F. now right.
  Qed.

  Definition kept (s s' : pstate) : Prop := Q (ps_comps s) -> Q (ps_comps s').
  (** The arguments of the calls of context methods register nothing else, in whatever file. *)
  Definition fine_call (c : call) : Prop := forall f name a x,
    c_obj c f = OFunc name (Some ginContext) -> In a (c_args c) -> In x (fst (a_result a f)) -> fine x.
  Definition fine_tree (n : node) : Prop := forall c, occurs c n -> fine_call c.

  Lemma kept_trans a b c : kept a b -> kept b c -> kept a c.
  Proof. unfold kept. auto. Qed.
  Lemma kept_same s s' : ps_comps s' = ps_comps s -> kept s s'.
  Proof. unfold kept. intros ->. auto. Qed.

  Lemma build_kept name c ops m cur s s' l : fine_call c -> c_obj c (ps_file s) = OFunc name (Some ginContext) ->
    build c ops m cur s = Ok (s', l) -> kept s s'.
  Proof.
    intros F Ho. assert (K : kept s (add_comps (fst (eval_ops (ps_file s) (c_args c) 0 ops)) s)).
    { intros H. apply register_kept; auto. intros x Hx. apply eval_ops_in in Hx as (a & Ha & Hx). exact (F _ _ _ _ Ho Ha Hx). }
    unfold build. destruct (snd (eval_ops _ _ _ _)) as [v| | |]; try discriminate.
    - destruct (m v) as [change|].
      + destruct cur as [p|]; [|discriminate]. destruct (nth_error _ p) as [r|]; [|discriminate].
        intros H. injection H as <- <-. exact K.
      + intros H. injection H as <- <-. exact K.
    - intros H. injection H as <- <-. exact K.
  Qed.

  Lemma inspect_kept again ctx here n : fine_tree n ->
    (forall g cur f s s' e, again g cur f s = Ok (s', e) -> kept s s') ->
    forall s l s' l', inspect (visit again [] ctx here) n s l = Ok (s', l') -> kept s s'.
  Proof.
    intros F Ha. induction n as [c ch IH] using node_ind'. intros s l s' l' H.
    rewrite inspect_eq in H.
    assert (W : forall s l s' l', walk (visit again [] ctx here) ch s l = Ok (s', l') -> kept s s').
    { assert (F' : forall n, In n ch -> fine_tree n) by (intros n Hn c' Hc; apply F; econstructor; eauto).
      clear s l s' l' H F. induction ch as [|n ns IHns]; intros s l s' l' H.
      - simpl in H. injection H as <- <-. now apply kept_same.
      - rewrite walk_cons in H. inversion IH as [|? ? Hn Hns]; subst.
        destruct (inspect (visit again [] ctx here) n s l) as [[s1 l1]| | |] eqn:E; try discriminate.
        cbn [bind fst snd] in H. eapply kept_trans; [eapply Hn; eauto; apply F'; now left|eapply IHns; eauto].
        intros n' Hn'. apply F'. now right. }
    destruct c as [c|].
    - destruct (visit again [] ctx here c s l) as [[[s1 l1] b]| | |] eqn:E; try discriminate.
      cbn [bind fst snd] in H.
      assert (L1 : kept s s1).
      { unfold visit in E. cbn [customs] in E.
        destruct (ArgIndex ctx c).
        - destruct (c_decl c (ps_file s)) as [|nf [g|]].
          + injection E as <- <- <-. now apply kept_same.
          + destruct (again g (l_cur l) _ _) as [[s2 e]| | |] eqn:E2; try discriminate.
            cbn [bind fst snd] in E. apply Ha in E2.
            assert (X : kept s s2) by (eapply kept_trans; [|exact E2]; destruct nf; now apply kept_same).
            destruct e; injection E as <- <- <-; auto.
          + injection E as <- <- <-. destruct nf; now apply kept_same.
        - destruct (c_obj c (ps_file s)) as [e|name [rt|]] eqn:Eo; try (injection E as <- <- <-; now apply kept_same).
          destruct (String.eqb_spec rt ginContext) as [->|]; try (injection E as <- <- <-; now apply kept_same).
          destruct (method name) as [[[mops m] stops]|] eqn:Em; try (injection E as <- <- <-; now apply kept_same).
          destruct (build c _ m (l_cur l) s) as [[s2 l2]| | |] eqn:E2; try discriminate.
          cbn [bind fst snd] in E. injection E as <- <- <-. eapply build_kept; eauto. apply F. constructor. }
      destruct b; [eapply kept_trans; eauto|injection H as <- <-; auto].
    - cbn [bind fst snd] in H. eapply W; exact H.
  Qed.

  Lemma function_kept n : forall funcs g cur f level s s' e, (forall g, fine_tree (fn_body (funcs g))) ->
    parseFunction n funcs [] g cur f level s = Ok (s', e) -> kept s s'.
  Proof.
    induction n as [|n IH]; intros funcs g cur f level s s' e F H; [discriminate|].
    rewrite parseFunction_eq in H. cbn zeta in H.
    match type of H with bind ?x _ = _ => destruct x as [s1| | |] eqn:E1; try discriminate end.
    assert (X1 : kept s s1).
    { destruct (Nat.eqb level 0).
      - destruct (String.eqb _ _).
        + injection E1 as <-. now apply kept_same.
        + destruct cur as [p|]; [|discriminate]. destruct (nth_error _ p) as [r|] eqn:Er; [|discriminate].
          injection E1 as <-. now apply kept_same.
      - injection E1 as <-. now apply kept_same. }
    cbn [bind] in H. destruct (fn_ctx (funcs g) (ps_file s1)) as [ctx| | |]; try discriminate.
    cbn [bind] in H. destruct (String.eqb ctx ""); [injection H as <- <-; auto|].
    destruct (inspect _ _ s1 _) as [[s2 l2]| | |] eqn:E; try discriminate.
    cbn [bind fst snd] in H.
    assert (X : kept s s2).
    { eapply kept_trans; [exact X1|]. eapply inspect_kept; [apply F| |exact E].
      unfold deeper. intros; eapply IH; eauto. }
    destruct (l_err l2); [injection H as <- <-; auto|].
    destruct (deref _ _); [|discriminate]. destruct (Nat.eqb _ 0 && _); injection H as <- <-; auto.
  Qed.

  Section Program.
    Context (fuel : nat) (prog : program).
    Hypothesis Hc : pr_customs prog = [].
    Hypothesis F : forall g, fine_tree (fn_body (pr_funcs prog g)).

    Lemma parse0_kept g s s' : parse0 fuel prog g s = Ok s' -> kept s s'.
    Proof.
      unfold parse0. rewrite Hc. intros H.
      destruct (parseFunction _ _ _ _ _ _ _ _) as [[s1 e]| | |] eqn:E; try discriminate.
      cbn [bind fst] in H. injection H as <-. eapply function_kept; eauto.
    Qed.

    Lemma inline_kept line l : forall s s', inline fuel prog line l s = Ok s' -> kept s s'.
    Proof.
      induction l as [a g inner IH] using lit_ind'. intros s s' H.
      rewrite inline_eq in H. destruct (Z.eqb _ _); [eapply parse0_kept; eauto|].
      revert s s' H. induction inner as [|l inner IHi]; intros s s' H.
      - injection H as <-. now apply kept_same.
      - cbn [inlines] in H. inversion IH as [|? ? Hl Hr]; subst.
        destruct (inline fuel prog line l s) as [s1| | |] eqn:E; try discriminate. cbn [bind] in H.
        eapply kept_trans; [eapply Hl; eauto|eapply IHi; eauto].
    Qed.
    Lemma inlines_kept line ls : forall s s', inlines fuel prog line ls s = Ok s' -> kept s s'.
    Proof.
      induction ls as [|l inner IHi]; intros s s' H.
      - injection H as <-. now apply kept_same.
      - cbn [inlines] in H.
        destruct (inline fuel prog line l s) as [s1| | |] eqn:E; try discriminate. cbn [bind] in H.
        eapply kept_trans; [eapply inline_kept; eauto|eapply IHi; eauto].
    Qed.
    Lemma decls_kept name line ds : forall s s', decls fuel prog name line ds s = Ok s' -> kept s s'.
    Proof.
      induction ds as [|d ds IH]; intros s s' H.
      - injection H as <-. now apply kept_same.
      - cbn [decls] in H.
        match type of H with bind ?x _ = _ => destruct x as [s1| | |] eqn:E1; try discriminate end.
        cbn [bind] in H. eapply kept_trans; [|eapply IH; eauto].
        destruct (String.eqb _ _); [|injection E1 as <-; now apply kept_same].
        destruct (Z.eqb _ _); [|eapply inlines_kept; eauto].
        destruct (nth_error (ps_heap s) 0) as [r|] eqn:Er; [|discriminate].
        eapply kept_trans; [|eapply parse0_kept; eauto]. now apply kept_same.
    Qed.

    Lemma parseRoute_kept r comps r' comps' : parseRoute fuel prog r comps = Ok (r', comps') -> Q comps -> Q comps'.
    Proof.
      unfold parseRoute.
      destruct (hp_handlerParts _) as [|fn parts]; [discriminate|].
      destruct (pr_package prog _) as [files|]; [|discriminate].
      destruct (find_file files _) as [[f ds]|]; [|discriminate].
      intros H.
      destruct (decls _ _ _ _ _ _) as [s1| | |] eqn:E; try discriminate. cbn [bind] in H.
      destruct (nth_error (ps_heap s1) 0) as [r1|] eqn:Er; [|discriminate]. injection H as <- <-.
      apply decls_kept in E. exact E.
    Qed.

    (** The components of each route stay. *)
    Lemma parse_from_comps : forall todo done comps routes' comps',
      NoDup (map rkey (done ++ todo)) -> Q comps ->
      parse_from fuel prog (List.length todo) (List.length done) (done ++ todo) comps = Ok (routes', comps', None) ->
      Q comps' /\ grows comps comps' /\
      exists out, routes' = (done ++ out)%list /\
        Forall2 (fun r r' => exists c c', parseRoute fuel prog r c = Ok (r', c') /\ Q c /\ grows c' comps') todo out.
    Proof.
      induction todo as [|r todo IH]; intros dn comps routes' comps' ND HC H.
      - cbn in H. injection H as <- <-. split; auto. split; [apply grows_refl|]. exists []. split; auto.
      - cbn [List.length parse_from] in H. rewrite nth_error_app2, Nat.sub_diag in H by lia. cbn [nth_error] in H.
        destruct (parseRoute fuel prog r comps) as [[r1 c1]|err| |] eqn:E; try discriminate.
        cbn [fst snd] in H.
        destruct (parseRoute_extends _ _ _ _ _ _ Hc E) as [[Id _] G1].
        destruct Id as (_ & _ & _ & Hm & Hp).
        assert (Hk : rkey r1 = rkey r) by (unfold rkey; congruence).
        rewrite ReplaceRoute_at in H; auto.
        2:{ intros x Hx Hxr. rewrite map_app in ND. cbn [map] in ND. apply NoDup_remove_2 in ND.
            apply ND. apply in_app_iff. left. rewrite <- Hxr. now apply in_map. }
        replace (dn ++ r1 :: todo)%list with ((dn ++ [r1]) ++ todo)%list in H
          by (rewrite <- app_assoc; reflexivity).
        replace (S (List.length dn)) with (List.length (dn ++ [r1])) in H
          by (rewrite app_length; simpl; lia).
        apply IH in H.
        + destruct H as (H1 & H2 & out & -> & F2). split; auto. split; [eapply grows_trans; eauto|].
          exists (r1 :: out). split; [now rewrite <- app_assoc|]. constructor; auto.
          exists comps, c1. auto.
        + rewrite <- app_assoc, map_app in *. cbn [app map] in *. now rewrite Hk.
        + eapply parseRoute_kept; eauto.
    Qed.
  End Program.
End Kept.
