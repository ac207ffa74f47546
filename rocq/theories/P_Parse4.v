From Coq Require Import List String Ascii Bool ZArith Arith Lia.
From Verif Require Import BaseStr M_Types M_Paths M_Tags M_Collect S_Collect P_Collect M_TypeTrav P_TypeTrav
  M_Parse S_Parse P_Parse P_Parse2 P_Parse3.
Import ListNotations.
Local Open Scope string_scope.

Local Arguments method : simpl never.
Local Arguments ParseResultToField : simpl never.

(** ** Finding the handler *)
Lemma find_file_at before fname f ds behind name :
  path_Base fname = path_Base name ->
  (forall x, In x before -> path_Base (fst (fst x)) <> path_Base name) ->
  find_file (before ++ (fname, f, ds) :: behind) name = Some (f, ds).
Proof.
  intros H1 H2. unfold find_file. induction before as [|x before IH]; cbn [app List.find].
  - cbn [fst]. now rewrite H1, String.eqb_refl.
  - rewrite (proj2 (String.eqb_neq _ _) (H2 x (or_introl eq_refl))). apply IH.
    intros y Hy. apply H2. now right.
Qed.

(** Analysing several functions in turn. *)
Fixpoint parse_each (fuel : nat) (prog : program) (gs : list funcref) (s : pstate) : outcome pstate :=
  match gs with
  | [] => Ok s
  | g :: rest => s <- parse0 fuel prog g s ;; parse_each fuel prog rest s
  end.

Lemma parse_each_app fuel prog a b s :
  parse_each fuel prog (a ++ b) s = (s <- parse_each fuel prog a s ;; parse_each fuel prog b s).
Proof.
  revert s. induction a as [|g a IH]; intros s; [reflexivity|]. cbn [app parse_each].
  destruct (parse0 fuel prog g s); cbn [bind]; auto.
Qed.

Section Lits.
  Context (fuel : nat) (prog : program) (line : Z) (f : file).

  (** The active file, and a route at pointer 0. *)
  Definition ready (s : pstate) : Prop := ps_file s = f /\ exists r, nth_error (ps_heap s) 0 = Some r.
  Definition stays (gs : list funcref) : Prop :=
    forall g s s', In g gs -> ready s -> parse0 fuel prog g s = Ok s' -> ready s'.

  Lemma parse_each_stays gs : stays gs -> forall s s', ready s ->
    parse_each fuel prog gs s = Ok s' -> ready s'.
  Proof.
    induction gs as [|g gs IH]; intros H s s' Hs E.
    - injection E as <-. auto.
    - cbn [parse_each] in E. destruct (parse0 fuel prog g s) as [s1| | |] eqn:E1; try discriminate.
      cbn [bind] in E. eapply IH; [|eapply H; [now left|exact Hs|exact E1]|exact E].
      intros g' x y Hg. apply H. now right.
  Qed.

  Lemma inlines_lits ls :
    Forall (fun l => stays (lits_at line f l) -> forall s, ready s ->
              inline fuel prog line l s = parse_each fuel prog (lits_at line f l) s) ls ->
    stays (flat_map (lits_at line f) ls) -> forall s, ready s ->
    inlines fuel prog line ls s = parse_each fuel prog (flat_map (lits_at line f) ls) s.
  Proof.
    induction ls as [|l ls IH]; intros F H s Hs; [reflexivity|]. inversion F as [|? ? Hl Hls]; subst.
    assert (H1 : stays (lits_at line f l)).
    { intros g x y Hg. apply H. cbn [flat_map]. apply in_app_iff. now left. }
    cbn [inlines flat_map]. rewrite parse_each_app, Hl; auto.
    destruct (parse_each fuel prog (lits_at line f l) s) as [s1| | |] eqn:E; cbn [bind]; auto.
    apply IH; auto.
    - intros g x y Hg. apply H. cbn [flat_map]. apply in_app_iff. now right.
    - eapply parse_each_stays; [exact H1|exact Hs|exact E].
  Qed.

  Lemma inline_lits l : stays (lits_at line f l) -> forall s, ready s ->
    inline fuel prog line l s = parse_each fuel prog (lits_at line f l) s.
  Proof.
    induction l as [a g inner IH] using lit_ind'. intros H s Hs. rewrite inline_eq. cbn [lits_at] in *.
    rewrite (proj1 Hs). destruct (Z.eqb line (a f)).
    - cbn [parse_each]. destruct (parse0 fuel prog g s); reflexivity.
    - now apply inlines_lits.
  Qed.
End Lits.

Lemma parseRoute_sound prog r f g op strict ctx es regs last :
  handler_of prog r f g op -> pr_customs prog = [] ->
  fn_ctx (pr_funcs prog g) f = Ok ctx -> ctx <> "" ->
  documents (pr_funcs prog) strict ctx f (fn_body (pr_funcs prog g)) es regs last ->
  exists N, forall fuel, N <= fuel -> forall comps,
  parseRoute fuel prog r comps = Ok (analysed (fn_doc (pr_funcs prog g)) op es r, register comps regs).
Proof.
  intros (pkg & name & more & files & before & fname & ds1 & d & ds2 & behind &
          Hh & Hplain & Hid & Hmore & Hpkg & -> & Hbase & Hbef & Hname & Huniq & Hcase) Hcu Hctx Hne D.
  destruct (parse0_sound prog g es regs last strict f ctx D Hcu Hctx Hne) as (N & S0).
  exists N. intros fuel Hf comps.
  unfold parseRoute. rewrite Hh, split_runtime_name; [|discriminate|constructor; auto].
  cbn [hp_handlerParts]. unfold PackagePath. cbn [hp_pathParts].
  change "/" with (str1 "/"). rewrite join_split, (proj2 (mangle_id_iff pkg) Hplain), Hpkg.
  rewrite (find_file_at before fname f _ behind _ Hbase Hbef).
  set (r0 := with_pathParams (ExtractParamsFromPath (rt_path r)) r).
  set (s0 := mkPS f [r0] comps).
  rewrite decls_one by (subst name; auto). cbn [decls]. rewrite Hname, String.eqb_refl. cbn [ps_file s0].
  assert (G : forall r1, parse0 fuel prog g (mkPS f [r1] comps) =
    Ok (mkPS f [recorded es (comment_of (fn_doc (pr_funcs prog g)) r1)] (register comps regs))).
  { intros r1. rewrite (S0 fuel Hf (mkPS f [r1] comps) r1); auto. }
  change (rt_line r0) with (rt_line r).
  destruct Hcase as [(Hl & -> & ->)|(Hl & Hlit & ->)].
  - rewrite <- Hl, Z.eqb_refl. cbn [nth_error ps_heap s0].
    unfold store. cbn [ps_file ps_heap ps_comps set_nth s0]. rewrite G. cbn [bind ps_heap nth_error].
    reflexivity.
  - assert (E : (rt_line r =? fd_line d f)%Z = false) by (apply Z.eqb_neq; congruence). rewrite E.
    assert (ST : stays fuel prog f [g]).
    { intros g' s s' [<-|[]] [Hs [r1 Er]] Hp0.
      rewrite (S0 fuel Hf s r1 Hs Er) in Hp0. injection Hp0 as <-. split; [reflexivity|].
      destruct (ps_heap s); [discriminate|]. eexists. reflexivity. }
    assert (RD : ready f s0) by (split; [reflexivity|eexists; reflexivity]).
    rewrite (inlines_lits fuel prog (rt_line r) f).
    + rewrite Hlit. cbn [parse_each]. unfold s0. rewrite G. cbn [bind ps_heap nth_error]. reflexivity.
    + apply Forall_forall. intros l _ Hst s Hs. now apply inline_lits.
    + now rewrite Hlit.
    + exact RD.
Qed.

(** ** Once more *)
Lemma handler_of_identity prog r r' f g op :
  same_identity r r' -> handler_of prog r f g op -> handler_of prog r' f g op.
Proof.
  intros (E1 & E2 & E3 & E4 & E5) H. unfold handler_of in *. now rewrite E1, E2, E3.
Qed.

Lemma analysed_identity doc op es r : same_identity r (analysed doc op es r).
Proof.
  unfold analysed, comment_of. destruct (String.eqb _ _), op; repeat split.
Qed.

Lemma register_again c l : register (register c l) l = register c l.
Proof.
  assert (K : forall l c, (forall x, In x l -> f_package (ParseResultToField x) <> "" ->
              exists y, In y c /\ comp_key y = comp_key (ParseResultToField x)) -> register c l = c).
  { clear. induction l as [|x l IH]; intros c H; [reflexivity|]. simpl.
    assert (E : addComponent c x = c).
    { unfold addComponent. destruct (String.eqb _ "") eqn:Ep; auto. apply String.eqb_neq in Ep.
      destruct (H x (or_introl eq_refl) Ep) as (y & Hy & Hk).
      unfold AddComponent. simpl. rewrite addComponent1_eq.
      assert (Ex : existsb (comp_same (ParseResultToField x)) c = true).
      { apply existsb_comp_same. rewrite <- Hk. now apply in_map. }
      now rewrite Ex. }
    rewrite E. apply IH. intros z Hz. apply H. now right. }
  apply K. intros x Hx Hp. now apply register_has.
Qed.

Lemma AddReturnType_same x l : Forall (fun y => ret_key y = ret_key x) l -> AddReturnType [x] l = [x].
Proof.
  unfold AddReturnType. induction l as [|y l IH]; intros F; [reflexivity|].
  inversion F as [|? ? Hy Hl]; subst. cbn [fold_left].
  assert (E : addReturn1 [x] y = [x]).
  { unfold addReturn1. cbn [existsb]. unfold ret_key in Hy. injection Hy as H1 H2 H3 H4.
    unfold ret_differs. now rewrite H1, H2, H3, H4, !String.eqb_refl, Z.eqb_refl. }
  rewrite E. auto.
Qed.

(** ** Routes terminate *)
Lemma converges_list {A} (step : nat -> A -> pstate -> outcome pstate)
  (all : nat -> list A -> pstate -> outcome pstate) :
  (forall fuel s, all fuel [] s = Ok s) ->
  (forall fuel x l s, all fuel (x :: l) s = (s <- step fuel x s ;; all fuel l s)) ->
  forall l, (forall x s, In x l -> converges (fun fuel => step fuel x s)) ->
  forall s, converges (fun fuel => all fuel l s).
Proof.
  intros H0 H1 l. induction l as [|x l IH]; intros H s.
  - apply (converges_ext (fun _ => Ok s)); [auto|]. apply converges_ret. discriminate.
  - apply (converges_ext (fun fuel => s <- step fuel x s ;; all fuel l s)); [auto|].
    apply converges_bind; [apply H; now left|]. intros s'. apply IH. intros y s'' Hy. apply H. now right.
Qed.

Section RouteTerminates.
  Context (prog : program).
  Context (WF : forall g, Acc (fun h' h => calls (pr_funcs prog) h h') g)
          (Hctx : forall h f, fn_ctx (pr_funcs prog h) f <> OutOfFuel)
          (Hargs : forall h c, occurs c (fn_body (pr_funcs prog h)) -> args_end c).

  Lemma parse0_converges g s : converges (fun fuel => parse0 fuel prog g s).
  Proof.
    unfold parse0. apply converges_bind.
    - now apply function_converges.
    - intros x. apply converges_ret. discriminate.
  Qed.

  Lemma inlines_converges line ls :
    (forall l s, In l ls -> converges (fun fuel => inline fuel prog line l s)) ->
    forall s, converges (fun fuel => inlines fuel prog line ls s).
  Proof.
    apply (converges_list (fun fuel l s => inline fuel prog line l s)
             (fun fuel ls s => inlines fuel prog line ls s)); reflexivity.
  Qed.

  Lemma inline_converges line l : forall s, converges (fun fuel => inline fuel prog line l s).
  Proof.
    induction l as [a g inner IH] using lit_ind'. intros s.
    apply (converges_ext (fun fuel => if Z.eqb line (a (ps_file s)) then parse0 fuel prog g s
                                      else inlines fuel prog line inner s)); [intros; now rewrite inline_eq|].
    destruct (Z.eqb _ _); [apply parse0_converges|]. apply inlines_converges.
    intros l s' Hl. rewrite Forall_forall in IH. now apply IH.
  Qed.

  Lemma decls_converges name line ds : forall s, converges (fun fuel => decls fuel prog name line ds s).
  Proof.
    apply (converges_list (fun fuel d s =>
             if String.eqb (fd_name d) name then
              if Z.eqb line (fd_line d (ps_file s)) then
                match nth_error (ps_heap s) 0 with
                | None => Panic
                | Some r => parse0 fuel prog (fd_ref d)
                              (store 0 (with_operationId (pr_lowerCamel prog name) r) s)
                end
              else inlines fuel prog line (fd_lits d) s
            else Ok s) (fun fuel ds s => decls fuel prog name line ds s)); try reflexivity.
    intros d s _. destruct (String.eqb _ _); [|apply converges_ret; discriminate].
    destruct (Z.eqb _ _).
    - destruct (nth_error _ 0); [apply parse0_converges|apply converges_ret; discriminate].
    - apply inlines_converges. intros; apply inline_converges.
  Qed.

  Lemma parseRoute_converges r comps : converges (fun fuel => parseRoute fuel prog r comps).
  Proof.
    unfold parseRoute.
    destruct (hp_handlerParts _) as [|fn parts]; [apply converges_ret; discriminate|].
    destruct (pr_package prog _) as [files|]; [|apply converges_ret; discriminate].
    destruct (find_file files _) as [[f ds]|]; [|apply converges_ret; discriminate].
    apply converges_bind; [apply decls_converges|].
    intros s. destruct (nth_error (ps_heap s) 0); apply converges_ret; discriminate.
  Qed.

  Lemma parse_from_converges n : forall i routes comps,
    converges (fun fuel => parse_from fuel prog n i routes comps).
  Proof.
    induction n as [|n IH]; intros i routes comps; [apply (converges_ret (Ok (routes, comps, None))); discriminate|].
    cbn [parse_from]. destruct (nth_error routes i) as [r|]; [|apply converges_ret; discriminate].
    destruct (parseRoute_converges r comps) as (N & o & Ho & H).
    destruct o as [x|e| |]; try congruence.
    - destruct (IH (S i) (ReplaceRoute (fst x) routes) (snd x)) as (N' & o' & Ho' & H').
      exists (max N N'), o'. split; auto. intros fuel Hf. rewrite H, H' by lia. reflexivity.
    - exists N, (Ok (routes, comps, Some e)). split; [discriminate|]. intros fuel Hf. now rewrite H.
    - exists N, Panic. split; [discriminate|]. intros fuel Hf. now rewrite H.
  Qed.
End RouteTerminates.

(** ** Custom functions that decline without declaring parameters *)
Definition declines (f : customFunc) : Prop := forall ctx c fl r, f ctx c fl r = CuNone [].

Lemma customs_decline cs ctx c cur ops s : Forall declines cs -> customs cs ctx c cur ops s = CuPass ops.
Proof.
  intros F. induction F as [|f cs Hf F IH]; [reflexivity|]. cbn [customs]. rewrite Hf, app_nil_r. exact IH.
Qed.

Lemma inspect_ext v v' n : (forall c s l, v c s l = v' c s l) ->
  forall s l, inspect v n s l = inspect v' n s l.
Proof.
  intros H. induction n as [c ch IH] using node_ind'. intros s l. rewrite !inspect_eq.
  assert (W : forall s l, walk v ch s l = walk v' ch s l).
  { induction ch as [|n ns IHns]; intros s' l'; [reflexivity|]. inversion IH as [|? ? Hn Hns]; subst.
    rewrite !walk_cons, Hn. destruct (inspect v' n s' l') as [y| | |]; cbn [bind]; auto. }
  destruct c as [c|].
  - rewrite H. destruct (v' c s l) as [[[s1 l1] b]| | |]; cbn [bind fst snd]; auto. now rewrite W.
  - cbn [bind fst snd]. apply W.
Qed.

Lemma function_declines fuel : forall funcs cs g cur f level s, Forall declines cs ->
  parseFunction fuel funcs cs g cur f level s = parseFunction fuel funcs [] g cur f level s.
Proof.
  induction fuel as [|n IH]; intros funcs cs g cur f level s F; [reflexivity|].
  rewrite !parseFunction_eq. cbn zeta.
  match goal with |- bind ?x _ = _ => destruct x as [s1| | |]; cbn [bind]; auto end.
  destruct (fn_ctx (funcs g) (ps_file s1)) as [ctx| | |]; cbn [bind]; auto.
  destruct (String.eqb ctx ""); auto.
  rewrite (inspect_ext _ (visit (deeper n funcs [] level) [] ctx f)); auto.
  intros c s2 l. unfold visit. rewrite customs_decline by auto. cbn [customs].
  destruct (ArgIndex ctx c); auto. destruct (c_decl c (ps_file s2)) as [|nf [g'|]]; auto.
  unfold deeper. now rewrite IH.
Qed.

(** ** A failed context method *)
Lemma crash_function funcs g f ctx pre es regs last c ch mid name ops m stops regs' e :
  fn_ctx (funcs g) f = Ok ctx -> ctx <> "" ->
  documents_all funcs false ctx f pre es regs last ->
  ~ passes ctx c -> c_obj c f = OFunc name (Some the_context) ->
  method name = Some (ops, m, stops) -> eval_ops f (c_args c) 0 ops = (regs', Err e) ->
  fn_body (funcs g) = Node None (pre ++ Node (Some c) ch :: mid ++ [Node None []]) ->
  exists N, forall fuel, N <= fuel -> forall level p s r, nth_error (ps_heap s) p = Some r ->
  forall x, parseFunction fuel funcs [] g (Some p) f level s <> Ok x.
Proof.
  intros Hctx Hne D Hnp Hobj Hm Hev Hbody.
  assert (D' : documents funcs false ctx f (Node None pre) es regs last) by now constructor.
  apply documents_sound in D'. destruct D' as (N & D').
  exists (S N). intros fuel Hf level p s00 r00 Hp00 [s' er] E. destruct fuel as [|fuel]; [lia|].
  rewrite parseFunction_eq in E. cbn zeta in E.
  match type of E with bind ?d _ = _ =>
    assert (S0 : exists s r, d = Ok s /\ ps_file s = f /\ nth_error (ps_heap s) p = Some r)
  end.
  { destruct (Nat.eqb level 0); [|exists (set_file f s00), r00; auto].
    destruct (String.eqb _ ""); [exists (set_file f s00), r00; auto|].
    cbn [set_file ps_heap]. rewrite Hp00. eexists _, _. split; [reflexivity|]. split; [reflexivity|].
    cbn [store ps_heap]. eapply nth_set_nth. exact Hp00. }
  destruct S0 as (s & r & Es & Hs & Hp). rewrite Es in E. cbn [bind] in E.
  rewrite Hs, Hctx in E. cbn [bind] in E.
  rewrite (proj2 (String.eqb_neq _ _) Hne) in E. rewrite Hbody, inspect_eq in E.
  cbn [bind fst snd l_cur] in E. rewrite walk_app in E.
  destruct (D' fuel ltac:(lia) level s p r (mkL (Some p) None) Hs Hp eq_refl)
    as (l1 & E1 & Hc1 & _).
  rewrite inspect_eq in E1. cbn [bind fst snd l_cur] in E1. rewrite E1 in E. cbn [bind fst snd] in E.
  rewrite walk_cons, inspect_eq in E.
  set (s1 := after es regs p s) in *.
  assert (V : exists s2 b, visit (deeper fuel funcs [] level) [] ctx f c s1 l1
                = Ok (s2, mkL None (Some e), b)).
  { unfold visit. cbn [customs]. apply not_passes in Hnp. rewrite Hnp.
    assert (F1 : ps_file s1 = f) by (unfold s1; now rewrite after_file).
    rewrite F1, Hobj, String.eqb_refl, Hm.
    rewrite (build_err c ([] ++ ops)%list m (l_cur l1) s1 regs' e); [|now rewrite F1].
    cbn [bind fst snd l_err]. eauto. }
  destruct V as (s2 & b & V). rewrite V in E. cbn [bind fst snd] in E.
  assert (NA : forall g' f' sa sb e', deeper fuel funcs [] level g' None f' sa = Ok (sb, e') -> e' <> None).
  { unfold deeper. intros g' f' sa sb e' H. eapply nil_function; eauto. }
  match type of E with
  | (x <- (y <- (if b then ?w else ?o) ;; _) ;; _) = _ =>
      destruct (if b then w else o) as [[s3 l3]| | |] eqn:E3; try discriminate
  end.
  cbn [bind fst snd] in E.
  assert (L3 : l_cur l3 = None).
  { destruct b; [|injection E3 as <- <-; reflexivity].
    assert (E4 : inspect (visit (deeper fuel funcs [] level) [] ctx f) (Node None ch) s2 (mkL None None) = Ok (s3, l3)
              \/ ch = []).
    { destruct ch as [|n ns]; [now right|]. left. rewrite inspect_eq. cbn [bind fst snd l_cur].
      rewrite walk_cons in E3 |- *.
      rewrite <- E3. destruct n as [cn chn]. rewrite !inspect_eq. destruct cn; reflexivity. }
    destruct E4 as [E4| ->].
    - eapply nil_inspect; [exact NA| |exact E4]. reflexivity.
    - injection E3 as <- <-. reflexivity. }
  rewrite walk_app in E.
  destruct (walk (visit (deeper fuel funcs [] level) [] ctx f) mid s3 l3) as [[s4 l4]| | |] eqn:E4; try discriminate.
  assert (L4 : l_cur l4 = None).
  { destruct mid as [|n ns]; [injection E4 as <- <-; auto|].
    assert (E5 : inspect (visit (deeper fuel funcs [] level) [] ctx f) (Node None (n :: ns)) s3 l3 = Ok (s4, l4)).
    { rewrite inspect_eq. cbn [bind fst snd]. rewrite walk_cons in E4 |- *. rewrite <- E4.
      destruct n as [cn chn]. rewrite !inspect_eq. destruct cn as [cn|]; reflexivity. }
    eapply nil_inspect; [exact NA| |exact E5]. exact L3. }
  cbn [bind fst snd] in E. rewrite walk_cons, inspect_eq in E. cbn [bind fst snd walk] in E.
  rewrite L4 in E. cbn in E. discriminate.
Qed.

Lemma crash_route prog r f g op ctx pre es regs last c ch mid name ops m stops regs' e :
  handler_of prog r f g op -> pr_customs prog = [] ->
  fn_ctx (pr_funcs prog g) f = Ok ctx -> ctx <> "" ->
  documents_all (pr_funcs prog) false ctx f pre es regs last ->
  ~ passes ctx c -> c_obj c f = OFunc name (Some the_context) ->
  method name = Some (ops, m, stops) -> eval_ops f (c_args c) 0 ops = (regs', Err e) ->
  fn_body (pr_funcs prog g) = Node None (pre ++ Node (Some c) ch :: mid ++ [Node None []]) ->
  exists N, forall fuel, N <= fuel -> forall comps x, parseRoute fuel prog r comps <> Ok x.
Proof.
  intros (pkg & nm & more & files & before & fname & ds1 & d & ds2 & behind &
          Hh & Hplain & Hid & Hmore & Hpkg & -> & Hbase & Hbef & Hname & Huniq & Hcase) Hcu Hctx Hne D Hnp Ho Hm Hev Hb.
  destruct (crash_function _ g f ctx pre es regs last c ch mid name ops m stops regs' e Hctx Hne D Hnp Ho Hm Hev Hb)
    as (N & C).
  assert (P0 : forall fuel s r, N <= fuel -> ps_file s = f -> nth_error (ps_heap s) 0 = Some r ->
               forall x, parse0 fuel prog g s <> Ok x).
  { intros fuel s r0 Hf Hs Hr x E. unfold parse0 in E. rewrite Hcu, Hs in E.
    destruct (parseFunction fuel (pr_funcs prog) [] g (Some 0) f 0 s) eqn:E0; try discriminate.
    now apply (C fuel Hf 0 0 s r0 Hr) in E0. }
  exists N. intros fuel Hf comps x.
  unfold parseRoute. rewrite Hh, split_runtime_name; [|discriminate|constructor; auto].
  cbn [hp_handlerParts]. unfold PackagePath. cbn [hp_pathParts].
  change "/" with (str1 "/"). rewrite join_split, (proj2 (mangle_id_iff pkg) Hplain), Hpkg.
  rewrite (find_file_at before fname f _ behind _ Hbase Hbef).
  set (r0 := with_pathParams (ExtractParamsFromPath (rt_path r)) r).
  set (s0 := mkPS f [r0] comps).
  rewrite decls_one by (subst nm; auto). cbn [decls]. rewrite Hname, String.eqb_refl. cbn [ps_file s0].
  change (rt_line r0) with (rt_line r).
  destruct Hcase as [(Hl & -> & ->)|(Hl & Hlit & ->)].
  - rewrite <- Hl, Z.eqb_refl. cbn [nth_error ps_heap s0].
    match goal with |- context [parse0 fuel prog _ ?s] =>
      pose proof (P0 fuel s _ Hf eq_refl eq_refl) as P1; destruct (parse0 fuel prog (fd_ref d) s) as [y| | |] end;
      try discriminate. now elim (P1 y).
  - assert (E : (rt_line r =? fd_line d f)%Z = false) by (apply Z.eqb_neq; congruence). rewrite E.
    assert (ST : stays fuel prog f [g]).
    { intros g' s s' [<-|[]] [Hs [r1 Er]] Hp0. now apply (P0 fuel s r1 Hf Hs Er) in Hp0. }
    rewrite (inlines_lits fuel prog (rt_line r) f).
    + rewrite Hlit. cbn [parse_each].
      pose proof (P0 fuel s0 r0 Hf eq_refl eq_refl) as P1. destruct (parse0 fuel prog g s0) as [y| | |];
      try discriminate. now elim (P1 y).
    + apply Forall_forall. intros l _ Hst s Hs. now apply inline_lits.
    + now rewrite Hlit.
    + split; [reflexivity|eexists; reflexivity].
Qed.
