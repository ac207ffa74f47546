From Coq Require Import List String Ascii Bool ZArith Arith Lia.
From Verif Require Import BaseStr M_Types M_Paths M_Tags M_Collect M_TypeTrav P_TypeTrav M_Parse S_Parse P_Parse.
Import ListNotations.
Local Open Scope string_scope.

Local Arguments method : simpl never.
Local Arguments ParseResultToField : simpl never.

(** ** At level 0 *)


Lemma recorded_comment_of doc es r : recorded es (comment_of doc r) = comment_of doc (recorded es r).
Proof. unfold comment_of. destruct (String.eqb _ _); destruct r; reflexivity. Qed.

Lemma parse0_sound prog g es regs last strict f ctx :
  documents (pr_funcs prog) strict ctx f (fn_body (pr_funcs prog g)) es regs last ->
  pr_customs prog = [] -> fn_ctx (pr_funcs prog g) f = Ok ctx -> ctx <> "" ->
  exists N, forall fuel, N <= fuel -> forall s r,
  ps_file s = f -> nth_error (ps_heap s) 0 = Some r ->
  parse0 fuel prog g s =
  Ok (mkPS f (set_nth 0 (recorded es (comment_of (fn_doc (pr_funcs prog g)) r)) (ps_heap s))
             (register (ps_comps s) regs)).
Proof.
  intros D Hcu Hctx Hne. apply documents_sound in D. destruct D as (N & D).
  exists (S N). intros fuel Hf s r Hs Hp. destruct fuel as [|fuel]; [lia|].
  unfold parse0. rewrite Hcu, parseFunction_eq. cbn zeta. cbn [Nat.eqb]. rewrite set_file_same.
  set (doc := fn_doc (pr_funcs prog g)).
  assert (E : (if (FormatDoc doc =? "")%string then Ok s
               else match nth_error (ps_heap s) 0 with
                    | Some r0 => Ok (store 0 (with_doc (TrimSpace (FormatDoc doc)) r0) s)
                    | None => Panic
                    end) = Ok (mkPS f (set_nth 0 (comment_of doc r) (ps_heap s)) (ps_comps s))).
  { unfold comment_of. destruct (String.eqb _ _).
    - rewrite set_nth_same by auto. subst f. now destruct s.
    - rewrite Hp. unfold store. now rewrite Hs. }
  rewrite E. cbn [bind ps_file]. rewrite Hctx. cbn [bind].
  rewrite (proj2 (String.eqb_neq _ _) Hne).
  set (s1 := mkPS f (set_nth 0 (comment_of doc r) (ps_heap s)) (ps_comps s)).
  assert (Hp1 : nth_error (ps_heap s1) 0 = Some (comment_of doc r)) by (eapply nth_set_nth; eauto).
  destruct (D fuel ltac:(lia) 0 s1 0 (comment_of doc r) (mkL (Some 0) None)) as (l' & E' & Hc & He); auto.
  rewrite Hs. fold s1. rewrite E'. cbn [bind fst snd].
  assert (R : after es regs 0 s1 =
    mkPS f (set_nth 0 (recorded es (comment_of doc r)) (ps_heap s)) (register (ps_comps s) regs)).
  { unfold after. rewrite Hp1. unfold s1. cbn [ps_heap ps_file ps_comps]. now rewrite set_set_nth. }
  destruct (l_err l') as [e|]; cbn [bind fst].
  - now rewrite R.
  - rewrite Hc. unfold deref. rewrite (after_heap es regs 0 s1 _ Hp1).
    destruct (Nat.eqb (List.length _) 0 && true); cbn [bind fst]; now rewrite R.
Qed.

(** ** parseRoute *)
Lemma decls_skip fuel prog name line ds s :
  (forall d, In d ds -> fd_name d <> name) -> decls fuel prog name line ds s = Ok s.
Proof.
  induction ds as [|d ds IH]; intros H; [reflexivity|]. cbn [decls].
  rewrite (proj2 (String.eqb_neq _ _) (H d (or_introl eq_refl))). cbn [bind].
  apply IH. intros d' Hd. apply H. now right.
Qed.

Lemma decls_app fuel prog name line ds1 ds2 s :
  decls fuel prog name line (ds1 ++ ds2) s =
  (s <- decls fuel prog name line ds1 s ;; decls fuel prog name line ds2 s).
Proof.
  revert s. induction ds1 as [|d ds IH]; intros s; [reflexivity|]. cbn [decls app].
  match goal with |- bind ?x _ = _ => destruct x as [s1| | |]; cbn [bind]; auto end.
Qed.

(** The declarations of a file in which only one has the name. *)
Lemma decls_one fuel prog name line ds1 d ds2 s :
  (forall d', In d' ds1 \/ In d' ds2 -> fd_name d' <> name) ->
  decls fuel prog name line (ds1 ++ d :: ds2) s = decls fuel prog name line [d] s.
Proof.
  intros H. rewrite decls_app, decls_skip by (intros; apply H; auto). cbn [bind].
  change (d :: ds2) with ([d] ++ ds2)%list. rewrite decls_app.
  destruct (decls fuel prog name line [d] s); cbn [bind]; auto.
  apply decls_skip. intros; apply H; auto.
Qed.

Lemma inlines_app fuel prog line a b s :
  inlines fuel prog line (a ++ b) s = (s <- inlines fuel prog line a s ;; inlines fuel prog line b s).
Proof.
  revert s. induction a as [|d ds IH]; intros s; [reflexivity|]. cbn [inlines app].
  match goal with |- bind ?x _ = _ => destruct x as [s1| | |]; cbn [bind]; auto end.
Qed.

Lemma inline_eq fuel prog line at_ g inner s :
  inline fuel prog line (Lit at_ g inner) s =
  if Z.eqb line (at_ (ps_file s)) then parse0 fuel prog g s else inlines fuel prog line inner s.
Proof.
  cbn [inline]. destruct (Z.eqb line (at_ (ps_file s))); auto.
  revert s. induction inner as [|l inner IH]; intros s; [reflexivity|]. cbn [inlines].
  destruct (inline fuel prog line l s); cbn [bind]; auto.
Qed.

(** ** Termination *)
Fixpoint node_ind' (P : node -> Prop)
  (H : forall c ch, Forall P ch -> P (Node c ch)) (n : node) : P n :=
  match n with
  | Node c ch => H c ch ((fix go (l : list node) : Forall P l :=
                            match l with
                            | [] => Forall_nil P
                            | x :: r => Forall_cons x (node_ind' P H x) (go r)
                            end) ch)
  end.

(** [converges F r]: the fuelled computation settles on [r], which is not running out of fuel. *)
Definition converges {A} (F : nat -> outcome A) : Prop :=
  exists N r, r <> OutOfFuel /\ forall fuel, N <= fuel -> F fuel = r.

Lemma converges_ret {A} (o : outcome A) : o <> OutOfFuel -> converges (fun _ => o).
Proof. intros H. exists 0, o. auto. Qed.

Lemma converges_bind {A B} (F : nat -> outcome A) (G : nat -> A -> outcome B) :
  converges F -> (forall x, converges (fun fuel => G fuel x)) ->
  converges (fun fuel => x <- F fuel ;; G fuel x).
Proof.
  intros (N & r & Hr & HF) HG. destruct r as [x|e| |]; try congruence.
  - destruct (HG x) as (N' & r' & Hr' & HG'). exists (max N N'), r'. split; auto.
    intros fuel Hf. rewrite HF by lia. cbn [bind]. apply HG'. lia.
  - exists N, (Err e). split; [discriminate|]. intros fuel Hf. now rewrite HF by lia.
  - exists N, Panic. split; [discriminate|]. intros fuel Hf. now rewrite HF by lia.
Qed.

Lemma converges_ext {A} (F G : nat -> outcome A) : (forall n, F n = G n) -> converges F -> converges G.
Proof.
  intros H (N & r & Hr & HF). exists N, r. split; auto. intros fuel Hf. now rewrite <- H, HF.
Qed.

Lemma eval_op_end f args i op :
  (forall a f, In a args -> a_value a f <> OutOfFuel /\ snd (a_result a f) <> OutOfFuel) ->
  snd (eval_op f args i op) <> OutOfFuel.
Proof.
  intros H. destruct op; simpl; try discriminate;
    destruct (nth_error args i) as [a|] eqn:E; simpl; try discriminate;
    apply nth_error_In in E; destruct (H a f E) as [H1 H2].
  - destruct (a_value a f) as [v|e| |]; simpl; try discriminate; try congruence.
    destruct (ParseInt v); discriminate.
  - destruct (a_result a f) as [regs [r|e| |]]; simpl in *; try discriminate; try congruence.
  - destruct (a_value a f) as [v|e| |]; simpl; try discriminate; congruence.
Qed.

Lemma eval_ops_end f args ops : forall i,
  (forall a f, In a args -> a_value a f <> OutOfFuel /\ snd (a_result a f) <> OutOfFuel) ->
  snd (eval_ops f args i ops) <> OutOfFuel.
Proof.
  induction ops as [|op ops IH]; intros i H; cbn [eval_ops]; [discriminate|].
  pose proof (eval_op_end f args i op H) as H1.
  destruct (eval_op f args i op) as [regs [v|e| |]]; unfold wbind; simpl in *; try discriminate; try congruence.
  pose proof (IH (S i) H) as H2.
  destruct (eval_ops f args (S i) ops) as [regs' [vs|e| |]]; simpl in *; try discriminate; congruence.
Qed.

Lemma build_end c ops m cur s : args_end c -> build c ops m cur s <> OutOfFuel.
Proof.
  intros H. unfold build. pose proof (eval_ops_end (ps_file s) (c_args c) ops 0) as He.
  destruct (eval_ops (ps_file s) (c_args c) 0 ops) as [regs [v|e| |]]; simpl in *;
    try discriminate.
  - destruct (m v); [|discriminate]. destruct cur; [|discriminate].
    destruct (nth_error _ _); discriminate.
  - exfalso. apply He; auto.
Qed.

Section Terminates.
  Context (funcs : funcref -> func) (cs : list customFunc).

  Lemma visit_converges ctx here c level s l :
    args_end c ->
    (forall g f nf cur f' s, passes ctx c -> c_decl c f = DFound nf (Some g) ->
       converges (fun fuel => parseFunction fuel funcs cs g cur f' (S level) s)) ->
    converges (fun fuel => visit (deeper fuel funcs cs level) cs ctx here c s l).
  Proof.
    intros Ha Hg. unfold visit.
    destruct (customs cs ctx c (l_cur l) [] s) as [|p s1|ops]; try (apply converges_ret; discriminate).
    destruct (ArgIndex ctx c) eqn:Hp.
    - apply passes_ArgIndex in Hp. destruct (c_decl c (ps_file s)) as [|nf [g|]] eqn:Hd;
        try (apply converges_ret; discriminate).
      apply (converges_bind (fun fuel => deeper fuel funcs cs level g (l_cur l) _ _)
               (fun fuel x => match snd x with
                              | Some e => Ok (fst x, mkL (l_cur l) (Some e), false)
                              | None => Ok (set_file here (fst x), mkL (l_cur l) None, true)
                              end)).
      + unfold deeper. eapply Hg; eauto.
      + intros x. destruct (snd x); apply converges_ret; discriminate.
    - destruct (c_obj c (ps_file s)) as [e|name [rt|]]; try (apply converges_ret; discriminate).
      destruct (String.eqb rt ginContext); try (apply converges_ret; discriminate).
      destruct (method name) as [[[mops m] stops]|]; try (apply converges_ret; discriminate).
      apply converges_ret.
      pose proof (build_end c (ops ++ mops)%list m (l_cur l) s Ha) as Hb.
      destruct (build c (ops ++ mops)%list m (l_cur l) s); simpl; try discriminate. congruence.
  Qed.

  Lemma inspect_converges ctx here level n :
    (forall c, occurs c n -> args_end c) ->
    (forall c g f nf cur f' s, occurs c n -> passes ctx c -> c_decl c f = DFound nf (Some g) ->
       converges (fun fuel => parseFunction fuel funcs cs g cur f' (S level) s)) ->
    forall s l, converges (fun fuel => inspect (visit (deeper fuel funcs cs level) cs ctx here) n s l).
  Proof.
    induction n as [c ch IH] using node_ind'. intros Ha Hg s l.
    apply (converges_ext (fun fuel =>
      x <- match c with
           | None => Ok (s, mkL (l_cur l) None, true)
           | Some c => visit (deeper fuel funcs cs level) cs ctx here c s l
           end ;;
      if snd x then walk (visit (deeper fuel funcs cs level) cs ctx here) ch (fst (fst x)) (snd (fst x))
      else Ok (fst x))); [intros; now rewrite inspect_eq|].
    assert (W : forall s l, converges (fun fuel =>
              walk (visit (deeper fuel funcs cs level) cs ctx here) ch s l)).
    { clear s l.
      assert (Ha' : forall n, In n ch -> forall c, occurs c n -> args_end c)
        by (intros; apply Ha; econstructor; eauto).
      assert (Hg' : forall n, In n ch -> forall c g f nf cur f' s, occurs c n -> passes ctx c ->
                c_decl c f = DFound nf (Some g) ->
                converges (fun fuel => parseFunction fuel funcs cs g cur f' (S level) s)).
      { intros n Hn c0 g f nf cur f' s Ho. apply Hg. econstructor; eauto. }
      clear Ha Hg. induction ch as [|n ns IHns]; intros s l.
      - apply (converges_ret (Ok (s, l))). discriminate.
      - inversion IH as [|? ? Hn Hns]; subst.
        apply (converges_ext (fun fuel => y <- inspect (visit (deeper fuel funcs cs level) cs ctx here) n s l ;;
             walk (visit (deeper fuel funcs cs level) cs ctx here) ns (fst y) (snd y))); [reflexivity|].
        apply converges_bind.
        + apply Hn; [now apply Ha'; left|]. intros. eapply Hg'; eauto. now left.
        + intros x. apply IHns; auto.
          * intros n' Hin. apply Ha'. now right.
          * intros n' Hin. apply Hg'. now right. }
    apply converges_bind.
    - destruct c as [c|]; [|apply converges_ret; discriminate].
      apply visit_converges.
      + apply Ha. constructor.
      + intros. eapply Hg; eauto. constructor.
    - intros x. destruct (snd x); [apply W|apply converges_ret; discriminate].
  Qed.

  (** No infinite chain of helpers: the analysis ends. *)
  Lemma function_converges g :
    Acc (fun h' h => calls funcs h h') g ->
    (forall h f, fn_ctx (funcs h) f <> OutOfFuel) ->
    (forall h c, occurs c (fn_body (funcs h)) -> args_end c) ->
    forall cur f level s, converges (fun fuel => parseFunction fuel funcs cs g cur f level s).
  Proof.
    intros A Hctx Hargs. induction A as [g _ IH]. intros cur f level s.
    assert (Step : converges (fun n => parseFunction (S n) funcs cs g cur f level s)).
    { apply (converges_ext (fun n => parseFunction (S n) funcs cs g cur f level s)); [reflexivity|].
      set (s1 := set_file f s).
      set (init := if Nat.eqb level 0 then
           let doc := FormatDoc (fn_doc (funcs g)) in
           if String.eqb doc "" then Ok s1
           else match cur with
                | None => Panic
                | Some p => match nth_error (ps_heap s1) p with
                            | None => Panic
                            | Some r => Ok (store p (with_doc (TrimSpace doc) r) s1)
                            end
                end
         else Ok s1).
      apply (converges_ext (fun n => s <- init ;; ctx <- fn_ctx (funcs g) (ps_file s) ;;
        if String.eqb ctx "" then Ok (s, Some "failed to find context variable name")
        else
          x <- inspect (visit (deeper n funcs cs level) cs ctx f) (fn_body (funcs g)) s (mkL cur None) ;;
          match l_err (snd x) with
          | Some e => Ok (fst x, Some e)
          | None =>
              match deref (l_cur (snd x)) (fst x) with
              | None => Panic
              | Some r => if Nat.eqb (List.length (rt_returns r)) 0 && Nat.eqb level 0
                          then Ok (fst x, Some "return type not found")
                          else Ok (fst x, None)
              end
          end)); [intros; now rewrite parseFunction_eq|].
      apply (converges_bind (fun _ => init)).
      { apply converges_ret. unfold init. destruct (Nat.eqb level 0); [|discriminate].
        cbn zeta. destruct (String.eqb _ _); [discriminate|]. destruct cur; [|discriminate].
        destruct (nth_error _ _); discriminate. }
      intros s2. destruct (fn_ctx (funcs g) (ps_file s2)) as [ctx|e| |] eqn:Ec;
        cbn [bind]; try (apply converges_ret; discriminate).
      2:{ exfalso. now apply (Hctx g (ps_file s2)). }
      destruct (String.eqb ctx ""); [apply converges_ret; discriminate|].
      apply converges_bind.
      { apply inspect_converges; eauto.
        intros c h f0 nf cur' f' s' Ho Hp Hd. apply IH.
        exists c, (ps_file s2), f0, nf, ctx. auto. }
      intros x. destruct (l_err (snd x)); [apply converges_ret; discriminate|].
      destruct (deref _ _); [|apply converges_ret; discriminate].
      destruct (Nat.eqb _ 0 && _); apply converges_ret; discriminate. }
    destruct Step as (N & r & Hr & HN). exists (S N), r. split; auto.
    intros fuel Hf. destruct fuel as [|fuel]; [lia|]. apply HN. lia.
  Qed.
End Terminates.
