From Coq Require Import List String Ascii Bool ZArith Arith Lia.
From Verif Require Import BaseStr M_Types M_Paths M_Tags M_Collect M_TypeTrav P_TypeTrav M_Parse S_Parse P_Parse P_Parse2.
Import ListNotations.
Local Open Scope string_scope.

Local Arguments method : simpl never.
Local Arguments ParseResultToField : simpl never.

(** ** Operations *)
Lemma eval_op_ok f args i op regs v :
  eval_op f args i op = (regs, Ok v) <-> op_value f args i op regs v.
Proof.
  split.
  - destruct op; simpl.
    + unfold wret. intros H. injection H as <- <-. constructor.
    + destruct (nth_error args i) as [a|] eqn:E; [|discriminate]. unfold wret.
      destruct (a_value a f) as [s|e| |] eqn:Ev; simpl; try discriminate.
      destruct (ParseInt s) eqn:Ep; intros H; [|discriminate]. injection H as <- <-.
      econstructor; eauto.
    + destruct (nth_error args i) as [a|] eqn:E; [|discriminate].
      destruct (a_result a f) as [rs [s|e| |]] eqn:Ev; simpl; intros H; try discriminate.
      injection H as <- <-. rewrite app_nil_r. econstructor; eauto.
    + destruct (nth_error args i) as [a|] eqn:E; [|discriminate]. unfold wret.
      destruct (a_value a f) as [s|e| |] eqn:Ev; simpl; intros H; try discriminate.
      injection H as <- <-. econstructor; eauto.
  - intros H. destruct H as [i|i a v z H1 H2 H3|i a regs r H1 H2|i a v H1 H2]; simpl; rewrite ?H1.
    + reflexivity.
    + rewrite H2. simpl. now rewrite H3.
    + rewrite H2. simpl. unfold wbind, wret; simpl; now rewrite ?app_nil_r.
    + now rewrite H2.
Qed.

Lemma eval_op_err f args i op regs e :
  eval_op f args i op = (regs, Err e) <-> op_fails f args i op regs e.
Proof.
  split.
  - destruct op; simpl.
    + discriminate.
    + destruct (nth_error args i) as [a|] eqn:E; [|discriminate]. unfold wret.
      destruct (a_value a f) as [s|e'| |] eqn:Ev; simpl; try discriminate.
      * destruct (ParseInt s) eqn:Ep; intros H; [discriminate|]. injection H as <- <-.
        eapply of_atoi; eauto.
      * intros H. injection H as <- <-. eapply of_status; eauto.
    + destruct (nth_error args i) as [a|] eqn:E; [|discriminate].
      destruct (a_result a f) as [rs [s|e'| |]] eqn:Ev; simpl; intros H; try discriminate.
      injection H as <- <-. econstructor; eauto.
    + destruct (nth_error args i) as [a|] eqn:E; [|discriminate]. unfold wret.
      destruct (a_value a f) as [s|e'| |] eqn:Ev; simpl; intros H; try discriminate.
      injection H as <- <-. econstructor; eauto.
  - intros H. destruct H as [i a e H1 H2|i a v H1 H2 H3|i a regs e H1 H2|i a e H1 H2]; simpl; rewrite H1, H2; simpl; auto.
    now rewrite H3.
Qed.

Lemma eval_ops_ok f args ops : forall i regs vs,
  eval_ops f args i ops = (regs, Ok vs) <-> ops_values f args i ops regs vs.
Proof.
  induction ops as [|op ops IH]; intros i regs vs.
  - simpl. unfold wret. split; intros H; [injection H as <- <-; constructor|inversion H; reflexivity].
  - cbn [eval_ops]. unfold wbind, wret. split; intros H.
    + destruct (eval_op f args i op) as [r1 [v| | |]] eqn:E1; try discriminate.
      destruct (eval_ops f args (S i) ops) as [r2 [vs'| | |]] eqn:E2; try discriminate.
      injection H as <- <-. rewrite app_nil_r.
      apply eval_op_ok in E1. apply IH in E2. now constructor.
    + inversion H; subst.
      match goal with Ho : op_value _ _ _ _ _ _, Hos : ops_values _ _ (S _) _ _ _ |- _ =>
        apply eval_op_ok in Ho; apply IH in Hos; rewrite Ho, Hos end.
      cbn; now rewrite ?app_nil_r.
Qed.

Lemma eval_ops_err f args ops : forall i regs e,
  eval_ops f args i ops = (regs, Err e) <->
  exists ops1 op ops2 r1 vs r2, ops = (ops1 ++ op :: ops2)%list /\ ops_values f args i ops1 r1 vs /\
    op_fails f args (i + List.length ops1) op r2 e /\ regs = (r1 ++ r2)%list.
Proof.
  induction ops as [|op ops IH]; intros i regs e.
  - simpl. split; [discriminate|]. intros (ops1 & op & ops2 & r1 & vs & r2 & H & _).
    destruct ops1; discriminate.
  - cbn [eval_ops]. unfold wbind, wret. split.
    + intros H. destruct (eval_op f args i op) as [r1 [v|e1| |]] eqn:E1; try discriminate.
      * destruct (eval_ops f args (S i) ops) as [r2 [vs'|e2| |]] eqn:E2; try discriminate.
        injection H as <- <-. apply IH in E2 as (ops1 & op' & ops2 & r1' & vs & r2' & -> & Hv & Hf & ->).
        exists (op :: ops1), op', ops2, (r1 ++ r1')%list, (v :: vs), r2'.
        split; [reflexivity|]. split; [constructor; auto; now apply eval_op_ok|].
        split; [simpl; now rewrite Nat.add_succ_r|apply app_assoc].
      * injection H as <- <-. exists [], op, ops, [], [], r1. split; [reflexivity|].
        split; [constructor|]. split; [simpl; rewrite Nat.add_0_r; now apply eval_op_err|reflexivity].
    + intros (ops1 & op' & ops2 & r1 & vs & r2 & H & Hv & Hf & ->).
      destruct ops1 as [|o ops1]; simpl in H; injection H as E1 E2; subst.
      * inversion Hv; subst. simpl in Hf. rewrite Nat.add_0_r in Hf. apply eval_op_err in Hf.
        now rewrite Hf.
      * inversion Hv; subst.
        match goal with Ho : op_value _ _ _ _ _ _ |- _ => apply eval_op_ok in Ho; rewrite Ho end.
        match goal with Hos : ops_values _ _ (S _) _ ?r _ |- _ =>
          assert (E : eval_ops f args (S i) (ops1 ++ op' :: ops2) = ((r ++ r2)%list, Err e)) end.
        { apply IH. do 6 eexists. split; [reflexivity|]. split; [eassumption|]. split; [|reflexivity].
          simpl in Hf. now rewrite Nat.add_succ_r in Hf. }
        rewrite E. cbn; now rewrite <- ?app_assoc.
Qed.

Lemma build_err c ops m cur s regs e :
  eval_ops (ps_file s) (c_args c) 0 ops = (regs, Err e) ->
  build c ops m cur s = Ok (add_comps regs s, mkL None (Some e)).
Proof. intros H. unfold build. now rewrite H. Qed.

(** ** A nil route *)
Lemma nil_build c ops m s s' l : build c ops m None s = Ok (s', l) -> l_cur l = None /\ l_err l <> None.
Proof.
  unfold build. destruct (snd (eval_ops _ _ _ _)); try discriminate.
  - destruct (m a); [discriminate|]. intros H. injection H as <- <-. simpl. split; auto. discriminate.
  - intros H. injection H as <- <-. simpl. split; auto. discriminate.
Qed.

Section Nil.
  Context (funcs : funcref -> func).

  Lemma nil_inspect again ctx here n :
    (forall g f s s' e, again g None f s = Ok (s', e) -> e <> None) ->
    forall s l s' l', l_cur l = None ->
    inspect (visit again [] ctx here) n s l = Ok (s', l') -> l_cur l' = None.
  Proof.
    intros Ha. induction n as [c ch IH] using node_ind'. intros s l s' l' Hl H.
    rewrite inspect_eq in H.
    assert (W : forall s l s' l', l_cur l = None -> walk (visit again [] ctx here) ch s l = Ok (s', l') ->
                l_cur l' = None).
    { clear s l s' l' Hl H. induction ch as [|n ns IHns]; intros s l s' l' Hl H.
      - simpl in H. injection H as <- <-. auto.
      - rewrite walk_cons in H. inversion IH as [|? ? Hn Hns]; subst.
        destruct (inspect (visit again [] ctx here) n s l) as [[s1 l1]| | |] eqn:E; try discriminate.
        cbn [bind fst snd] in H. eapply IHns; [auto| |exact H]. eapply Hn; eauto. }
    destruct c as [c|].
    - destruct (visit again [] ctx here c s l) as [[[s1 l1] b]| | |] eqn:E; try discriminate.
      cbn [bind fst snd] in H.
      assert (L1 : l_cur l1 = None).
      { unfold visit in E. cbn [customs] in E. rewrite Hl in E.
        destruct (ArgIndex ctx c).
        - destruct (c_decl c (ps_file s)) as [|nf [g|]]; try (injection E as <- <- <-; reflexivity).
          destruct (again g None _ _) as [[s2 e]| | |] eqn:E2; try discriminate.
          cbn [bind fst snd] in E. destruct e; injection E as <- <- <-; reflexivity.
        - destruct (c_obj c (ps_file s)) as [e|name [rt|]]; try (injection E as <- <- <-; reflexivity).
          destruct (String.eqb rt ginContext); try (injection E as <- <- <-; reflexivity).
          destruct (method name) as [[[mops m] stops]|]; try (injection E as <- <- <-; reflexivity).
          destruct (build c _ m None s) as [[s2 l2]| | |] eqn:E2; try discriminate.
          cbn [bind fst snd] in E. injection E as <- <- <-. now apply nil_build in E2. }
      destruct b; [eapply W; eauto|injection H as <- <-; auto].
    - cbn [bind fst snd] in H. eapply W; [|exact H]. auto.
  Qed.

  (** Analysing a helper with a nil route never succeeds. *)
  Lemma nil_function n : forall g f level s s' e,
    parseFunction n funcs [] g None f level s = Ok (s', e) -> e <> None.
  Proof.
    induction n as [|n IH]; intros g f level s s' e H; [discriminate|].
    rewrite parseFunction_eq in H. cbn zeta in H.
    match type of H with bind ?x _ = _ => destruct x as [s1| | |]; try discriminate end.
    cbn [bind] in H. destruct (fn_ctx (funcs g) (ps_file s1)) as [ctx| | |]; try discriminate.
    cbn [bind] in H. destruct (String.eqb ctx "").
    { injection H as <- <-. discriminate. }
    destruct (inspect _ _ s1 _) as [[s2 l2]| | |] eqn:E; try discriminate.
    cbn [bind fst snd] in H. apply nil_inspect in E; auto.
    - destruct (l_err l2).
      + injection H as <- <-. discriminate.
      + rewrite E in H. discriminate.
    - unfold deeper. intros g' f' sa sb e' H'. eapply IH; eauto.
  Qed.
End Nil.

Lemma walk_app v a b s l :
  walk v (a ++ b) s l = (y <- walk v a s l ;; walk v b (fst y) (snd y)).
Proof.
  revert s l. induction a as [|n a IH]; intros s l; [reflexivity|].
  cbn [app]. rewrite !walk_cons. destruct (inspect v n s l) as [[s1 l1]| | |]; cbn [bind fst snd]; auto.
Qed.

(** ** Growth *)
Lemma grows_refl {A} (l : list A) : grows l l.
Proof. exists []. now rewrite app_nil_r. Qed.
Lemma grows_app {A} (l t : list A) : grows l (l ++ t).
Proof. now exists t. Qed.
Lemma grows_trans {A} (a b c : list A) : grows a b -> grows b c -> grows a c.
Proof. intros [t ->] [u ->]. exists (t ++ u)%list. now rewrite app_assoc. Qed.

Lemma addReturn1_grows a r : grows a (addReturn1 a r).
Proof.
  unfold addReturn1. destruct a; [now exists [r]|].
  destruct (existsb _ _); [apply grows_app|apply grows_refl].
Qed.
Lemma AddReturnType_grows n : forall a, grows a (AddReturnType a n).
Proof.
  unfold AddReturnType. induction n as [|x n IH]; intros a; simpl; [apply grows_refl|].
  eapply grows_trans; [apply addReturn1_grows|apply IH].
Qed.

Lemma same_identity_refl r : same_identity r r.
Proof. repeat split. Qed.
Lemma extends_refl r : extends r r.
Proof. repeat split; apply grows_refl. Qed.
Lemma extends_trans a b c : extends a b -> extends b c -> extends a c.
Proof.
  intros ((A1 & A2 & A3 & A4 & A5) & A) ((B1 & B2 & B3 & B4 & B5) & B).
  split; [repeat split; congruence|].
  destruct A as (? & ? & ? & ? & ?), B as (? & ? & ? & ? & ?).
  repeat split; eapply grows_trans; eauto.
Qed.
Lemma extends_recorded es r : extends r (recorded es r).
Proof. repeat split; simpl; first [apply grows_app|apply AddReturnType_grows]. Qed.
Lemma extends_doc d r : extends r (with_doc d r).
Proof. repeat split; simpl; apply grows_refl. Qed.

(** All routes stay and only grow, and so do the components. *)
Definition heap_extends (s s' : pstate) : Prop :=
  (forall p r, nth_error (ps_heap s) p = Some r ->
   exists r', nth_error (ps_heap s') p = Some r' /\ extends r r') /\ grows (ps_comps s) (ps_comps s').

Lemma register_grows calls : forall c, grows c (register c calls).
Proof.
  induction calls as [|x calls IH]; intros c; simpl; [apply grows_refl|].
  eapply grows_trans; [|apply IH]. unfold addComponent. destruct (String.eqb _ ""); [apply grows_refl|].
  unfold AddComponent. simpl. unfold addComponent1. destruct c; [eexists; reflexivity|].
  destruct (existsb _ _); [apply grows_refl|apply grows_app].
Qed.

Lemma heap_extends_refl s : heap_extends s s.
Proof. split; [|apply grows_refl]. intros p r H. exists r. split; auto. apply extends_refl. Qed.
Lemma heap_extends_trans a b c : heap_extends a b -> heap_extends b c -> heap_extends a c.
Proof.
  intros [H1 G1] [H2 G2]. split; [|eapply grows_trans; eauto].
  intros p r H. destruct (H1 p r H) as (r1 & E1 & X1). destruct (H2 p r1 E1) as (r2 & E2 & X2).
  exists r2. split; auto. eapply extends_trans; eauto.
Qed.
Lemma heap_extends_file s f : heap_extends s (set_file f s).
Proof. apply (heap_extends_refl s). Qed.
Lemma heap_extends_comps s l : heap_extends s (add_comps l s).
Proof. split; [apply (heap_extends_refl s)|apply register_grows]. Qed.
Lemma heap_extends_store s p r x :
  nth_error (ps_heap s) p = Some r -> extends r x -> heap_extends s (store p x s).
Proof.
  intros H X. split; [|apply grows_refl]. intros q r' Hq. unfold store. simpl.
  destruct (Nat.eq_dec p q) as [->|N].
  - rewrite Hq in H. injection H as ->. exists x. split; auto. eapply nth_set_nth; eauto.
  - exists r'. rewrite nth_set_other by auto. split; auto. apply extends_refl.
Qed.

Lemma method_extends name ops m stops vals change r :
  method name = Some (ops, m, stops) -> m vals = Some change -> extends r (change r).
Proof.
  unfold method. intros H.
  assert (X : exists es, forall change, m vals = Some change -> change r = recorded es r).
  { repeat match type of H with
    | (if str_in ?n ?l then _ else _) = _ => destruct (str_in n l); [injection H as <- <- <-|]
    end; try discriminate;
    unfold status_result, status_only, named, bound;
    destruct (nth_error vals 0) as [[| | |]|]; try (exists []; discriminate);
    try (destruct (nth_error vals 1) as [[| | |]|]; try (exists []; discriminate));
    eexists; intros ch Hc; injection Hc as <-;
    first [apply add_return_recorded|apply add_query_recorded|apply add_body_recorded
          |apply add_reqHeader_recorded|apply add_respHeader_recorded|apply bind_all_recorded]. }
  destruct X as [es X]. intros Hc. rewrite (X change Hc). apply extends_recorded.
Qed.

Lemma build_extends name c ops0 ops m stops cur s s' l :
  method name = Some (ops, m, stops) -> build c ops0 m cur s = Ok (s', l) -> heap_extends s s'.
Proof.
  intros Hm. unfold build. destruct (snd (eval_ops _ _ _ _)) as [v| | |]; try discriminate.
  - destruct (m v) as [change|] eqn:Ec.
    + destruct cur as [p|]; [|discriminate].
      destruct (nth_error _ p) as [r|] eqn:Er; [|discriminate].
      intros H. injection H as <- <-.
      eapply heap_extends_trans; [|eapply heap_extends_store; [exact Er|]].
      * apply heap_extends_comps.
      * eapply method_extends; eauto.
    + intros H. injection H as <- <-. apply heap_extends_comps.
  - intros H. injection H as <- <-. apply heap_extends_comps.
Qed.

Lemma inspect_extends again ctx here n :
  (forall g cur f s s' e, again g cur f s = Ok (s', e) -> heap_extends s s') ->
  forall s l s' l', inspect (visit again [] ctx here) n s l = Ok (s', l') -> heap_extends s s'.
Proof.
  intros Ha. induction n as [c ch IH] using node_ind'. intros s l s' l' H.
  rewrite inspect_eq in H.
  assert (W : forall s l s' l', walk (visit again [] ctx here) ch s l = Ok (s', l') -> heap_extends s s').
  { clear s l s' l' H. induction ch as [|n ns IHns]; intros s l s' l' H.
    - simpl in H. injection H as <- <-. apply heap_extends_refl.
    - rewrite walk_cons in H. inversion IH as [|? ? Hn Hns]; subst.
      destruct (inspect (visit again [] ctx here) n s l) as [[s1 l1]| | |] eqn:E; try discriminate.
      cbn [bind fst snd] in H. eapply heap_extends_trans; [eapply Hn; eauto|eapply IHns; eauto]. }
  destruct c as [c|].
  - destruct (visit again [] ctx here c s l) as [[[s1 l1] b]| | |] eqn:E; try discriminate.
    cbn [bind fst snd] in H.
    assert (L1 : heap_extends s s1).
    { unfold visit in E. cbn [customs] in E.
      destruct (ArgIndex ctx c).
      - destruct (c_decl c (ps_file s)) as [|nf [g|]].
        + injection E as <- <- <-. apply heap_extends_refl.
        + destruct (again g (l_cur l) _ _) as [[s2 e]| | |] eqn:E2; try discriminate.
          cbn [bind fst snd] in E. apply Ha in E2.
          assert (X : heap_extends s s2).
          { eapply heap_extends_trans; [|exact E2]. destruct nf; [apply heap_extends_file|apply heap_extends_refl]. }
          destruct e; injection E as <- <- <-; auto.
        + injection E as <- <- <-. destruct nf; [apply heap_extends_file|apply heap_extends_refl].
      - destruct (c_obj c (ps_file s)) as [e|name [rt|]]; try (injection E as <- <- <-; apply heap_extends_refl).
        destruct (String.eqb rt ginContext); try (injection E as <- <- <-; apply heap_extends_refl).
        destruct (method name) as [[[mops m] stops]|] eqn:Em; try (injection E as <- <- <-; apply heap_extends_refl).
        destruct (build c _ m (l_cur l) s) as [[s2 l2]| | |] eqn:E2; try discriminate.
        cbn [bind fst snd] in E. injection E as <- <- <-. eapply build_extends; eauto. }
    destruct b; [eapply heap_extends_trans; eauto|injection H as <- <-; auto].
  - cbn [bind fst snd] in H. eapply W; exact H.
Qed.

Lemma function_extends n : forall funcs g cur f level s s' e,
  parseFunction n funcs [] g cur f level s = Ok (s', e) -> heap_extends s s'.
Proof.
  induction n as [|n IH]; intros funcs g cur f level s s' e H; [discriminate|].
  rewrite parseFunction_eq in H. cbn zeta in H.
  match type of H with bind ?x _ = _ => destruct x as [s1| | |] eqn:E1; try discriminate end.
  assert (X1 : heap_extends s s1).
  { destruct (Nat.eqb level 0).
    - destruct (String.eqb _ _).
      + injection E1 as <-. apply heap_extends_file.
      + destruct cur as [p|]; [|discriminate]. destruct (nth_error _ p) as [r|] eqn:Er; [|discriminate].
        injection E1 as <-. eapply heap_extends_trans; [|eapply heap_extends_store; [exact Er|apply extends_doc]].
        apply heap_extends_file.
    - injection E1 as <-. apply heap_extends_file. }
  cbn [bind] in H. destruct (fn_ctx (funcs g) (ps_file s1)) as [ctx| | |]; try discriminate.
  cbn [bind] in H. destruct (String.eqb ctx ""); [injection H as <- <-; auto|].
  destruct (inspect _ _ s1 _) as [[s2 l2]| | |] eqn:E; try discriminate.
  cbn [bind fst snd] in H.
  assert (X : heap_extends s s2).
  { eapply heap_extends_trans; [exact X1|]. eapply inspect_extends; [|exact E].
    unfold deeper. intros; eapply IH; eauto. }
  destruct (l_err l2); [injection H as <- <-; auto|].
  destruct (deref _ _); [|discriminate]. destruct (Nat.eqb _ 0 && _); injection H as <- <-; auto.
Qed.

(** ** Routes *)
Lemma parse0_extends fuel prog g s s' :
  pr_customs prog = [] -> parse0 fuel prog g s = Ok s' -> heap_extends s s'.
Proof.
  intros Hc. unfold parse0. rewrite Hc. intros H.
  destruct (parseFunction _ _ _ _ _ _ _ _) as [[s1 e]| | |] eqn:E; try discriminate.
  cbn [bind fst] in H. injection H as <-. eapply function_extends; eauto.
Qed.

Fixpoint lit_ind' (P : lit -> Prop)
  (H : forall a g inner, Forall P inner -> P (Lit a g inner)) (l : lit) : P l :=
  match l with
  | Lit a g inner => H a g inner ((fix go (ls : list lit) : Forall P ls :=
                            match ls with
                            | [] => Forall_nil P
                            | x :: r => Forall_cons x (lit_ind' P H x) (go r)
                            end) inner)
  end.

Lemma inline_extends fuel prog line l : pr_customs prog = [] ->
  forall s s', inline fuel prog line l s = Ok s' -> heap_extends s s'.
Proof.
  intros Hc. induction l as [a g inner IH] using lit_ind'. intros s s' H.
  rewrite inline_eq in H. destruct (Z.eqb _ _); [eapply parse0_extends; eauto|].
  revert s s' H. induction inner as [|l inner IHi]; intros s s' H.
  - injection H as <-. apply heap_extends_refl.
  - cbn [inlines] in H. inversion IH as [|? ? Hl Hr]; subst.
    destruct (inline fuel prog line l s) as [s1| | |] eqn:E; try discriminate. cbn [bind] in H.
    eapply heap_extends_trans; [eapply Hl; eauto|eapply IHi; eauto].
Qed.

Lemma inlines_extends fuel prog line ls : pr_customs prog = [] ->
  forall s s', inlines fuel prog line ls s = Ok s' -> heap_extends s s'.
Proof.
  intros Hc. induction ls as [|l inner IHi]; intros s s' H.
  - injection H as <-. apply heap_extends_refl.
  - cbn [inlines] in H.
    destruct (inline fuel prog line l s) as [s1| | |] eqn:E; try discriminate. cbn [bind] in H.
    eapply heap_extends_trans; [eapply inline_extends; eauto|eapply IHi; eauto].
Qed.

Lemma extends_operationId d r : extends r (with_operationId d r).
Proof. repeat split; simpl; apply grows_refl. Qed.
Lemma extends_pathParams d r : extends r (with_pathParams d r).
Proof. repeat split; simpl; apply grows_refl. Qed.

Lemma decls_extends fuel prog name line ds : pr_customs prog = [] ->
  forall s s', decls fuel prog name line ds s = Ok s' -> heap_extends s s'.
Proof.
  intros Hc. induction ds as [|d ds IH]; intros s s' H.
  - injection H as <-. apply heap_extends_refl.
  - cbn [decls] in H.
    match type of H with bind ?x _ = _ => destruct x as [s1| | |] eqn:E1; try discriminate end.
    cbn [bind] in H. eapply heap_extends_trans; [|eapply IH; eauto].
    destruct (String.eqb _ _); [|injection E1 as <-; apply heap_extends_refl].
    destruct (Z.eqb _ _); [|eapply inlines_extends; eauto].
    destruct (nth_error (ps_heap s) 0) as [r|] eqn:Er; [|discriminate].
    eapply heap_extends_trans; [eapply heap_extends_store; [exact Er|apply extends_operationId]|].
    eapply parse0_extends; eauto.
Qed.

Lemma parseRoute_extends fuel prog r comps r' comps' :
  pr_customs prog = [] -> parseRoute fuel prog r comps = Ok (r', comps') ->
  extends r r' /\ grows comps comps'.
Proof.
  intros Hc. unfold parseRoute.
  destruct (hp_handlerParts _) as [|fn parts]; [discriminate|].
  destruct (pr_package prog _) as [files|]; [|discriminate].
  destruct (find_file files _) as [[f ds]|]; [|discriminate].
  intros H.
  destruct (decls _ _ _ _ _ _) as [s1| | |] eqn:E; try discriminate. cbn [bind] in H.
  destruct (nth_error (ps_heap s1) 0) as [r1|] eqn:Er; [|discriminate]. injection H as <- <-.
  apply decls_extends in E; auto. destruct E as [E G].
  destruct (E 0 _ eq_refl) as (r2 & E2 & X). rewrite Er in E2. injection E2 as <-.
  split; auto.
Qed.

(** ** The loop over the routes *)
Definition rkey (r : Route) : string * string := (rt_path r, rt_method r).

Lemma ReplaceRoute_at a r b r' :
  (forall x, In x a -> rkey x <> rkey r) -> rkey r' = rkey r ->
  ReplaceRoute r' (a ++ r :: b) = (a ++ r' :: b)%list.
Proof.
  intros H Hk. injection Hk as Hp Hm. induction a as [|x a IH]; cbn [app ReplaceRoute].
  - now rewrite Hp, Hm, !String.eqb_refl.
  - assert (Hx : rkey x <> rkey r) by (apply H; now left).
    destruct (String.eqb (rt_path x) (rt_path r')) eqn:E1; cbn [andb].
    + destruct (String.eqb (rt_method x) (rt_method r')) eqn:E2.
      * exfalso. apply Hx. apply String.eqb_eq in E1, E2. unfold rkey. congruence.
      * f_equal. apply IH. intros y Hy. apply H. now right.
    + f_equal. apply IH. intros y Hy. apply H. now right.
Qed.

Lemma parse_from_each fuel prog (Hc : pr_customs prog = []) : forall todo done comps routes' comps' e,
  NoDup (map rkey (done ++ todo)) ->
  parse_from fuel prog (List.length todo) (List.length done) (done ++ todo) comps = Ok (routes', comps', e) ->
  exists out rest, routes' = (done ++ out ++ rest)%list /\
    (exists bef, todo = (bef ++ rest)%list /\
      Forall2 (fun r r' => exists c c', parseRoute fuel prog r c = Ok (r', c')) bef out) /\
    (e = None -> rest = []) /\ (e <> None -> rest <> []).
Proof.
  induction todo as [|r todo IH]; intros dn comps routes' comps' e ND H.
  - cbn in H. injection H as <- <- <-. exists [], []. rewrite !app_nil_r. split; auto.
    split; [exists []; split; auto|]. split; congruence.
  - cbn [List.length parse_from] in H. rewrite nth_error_app2, Nat.sub_diag in H by lia. cbn [nth_error] in H.
    destruct (parseRoute fuel prog r comps) as [[r1 c1]|err| |] eqn:E; try discriminate.
    + cbn [fst snd] in H.
      destruct (parseRoute_extends _ _ _ _ _ _ Hc E) as [[Id _] _].
      destruct Id as (_ & _ & _ & Hm & Hp).
      assert (Hk : rkey r1 = rkey r) by (unfold rkey; congruence).
      rewrite ReplaceRoute_at in H; auto.
      2:{ intros x Hx Hxr. rewrite map_app in ND. cbn [map] in ND. apply NoDup_remove_2 in ND.
          apply ND. apply in_app_iff. left. rewrite <- Hxr. now apply in_map. }
      replace (dn ++ r1 :: todo)%list with ((dn ++ [r1]) ++ todo)%list in H
        by (rewrite <- app_assoc; reflexivity).
      replace (S (List.length dn)) with (List.length (dn ++ [r1])) in H
        by (rewrite app_length; simpl; lia).
      apply IH in H.
      * destruct H as (out & rest & -> & (bef & -> & F) & He).
        exists (r1 :: out), rest. split; [now rewrite <- !app_assoc|].
        split; [|exact He]. exists (r :: bef). split; [reflexivity|]. constructor; eauto.
      * rewrite <- app_assoc, map_app in *. cbn [app map] in *. now rewrite Hk.
    + injection H as <- <- <-. exists [], (r :: todo). split; auto.
      split; [exists []; split; auto|]. split; [congruence|discriminate].
Qed.
