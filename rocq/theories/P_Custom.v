(** Proofs: custom functions that answer calls. *)
From Coq Require Import List String Ascii Bool ZArith Arith Lia.
From Verif Require Import BaseStr M_Types M_Paths M_Tags M_Collect S_Collect P_Collect M_TypeTrav P_TypeTrav M_Parse S_Parse P_Parse P_Parse2 P_Parse3 P_Parse4 S_Custom.
Import ListNotations.
Local Open Scope string_scope.
Local Arguments method : simpl never.

Definition changed (l : list (Route -> Route)) (regs : list Result) (p : nat) (s : pstate) : pstate :=
  match nth_error (ps_heap s) p with
  | Some r => mkPS (ps_file s) (set_nth p (applied l r) (ps_heap s)) (register (ps_comps s) regs)
  | None => s
  end.
Lemma changed_nil p s r : nth_error (ps_heap s) p = Some r -> changed [] [] p s = s.
Proof. intros H. unfold changed. rewrite H. cbn [applied fold_left]. rewrite set_nth_same by auto. now destruct s. Qed.
Lemma applied_app a b r : applied (a ++ b) r = applied b (applied a r).
Proof. apply fold_left_app. Qed.
Lemma changed_app l1 r1 l2 r2 p s : changed (l1 ++ l2) (r1 ++ r2) p s = changed l2 r2 p (changed l1 r1 p s).
Proof.
  unfold changed. destruct (nth_error (ps_heap s) p) as [r|] eqn:H; [|now rewrite H].
  cbn [ps_heap ps_file ps_comps]. rewrite (nth_set_nth p _ r) by auto. now rewrite applied_app, register_app, set_set_nth.
Qed.
Lemma changed_file l regs p s : ps_file (changed l regs p s) = ps_file s.
Proof. unfold changed. destruct (nth_error _ _); reflexivity. Qed.
Lemma changed_heap l regs p s r : nth_error (ps_heap s) p = Some r -> nth_error (ps_heap (changed l regs p s)) p = Some (applied l r).
Proof. intros H. unfold changed. rewrite H. cbn [ps_heap]. eapply nth_set_nth; eauto. Qed.
Lemma changed_set_file l regs p s f : changed l regs p (set_file f s) = set_file f (changed l regs p s).
Proof. unfold changed. cbn [ps_heap set_file]. destruct (nth_error _ _); reflexivity. Qed.
Lemma after_changed es regs p s : after es regs p s = changed [recorded es] regs p s.
Proof. reflexivity. Qed.

Lemma answered_customs cs ctx c f o : answered cs ctx c f o -> forall p s r, ps_file s = f -> nth_error (ps_heap s) p = Some r ->
  customs cs ctx c (Some p) [] s = match o with Some d => CuTaken p (store p (d r) s) | None => CuPass [] end.
Proof.
  induction 1 as [ctx c f|cu rest ctx c f ch H|cu rest ctx c f o H _ IH]; intros p s r Hs Hp; cbn [customs].
  - reflexivity.
  - unfold deref. rewrite Hs, Hp, H. reflexivity.
  - unfold deref. rewrite Hs, Hp, H. cbn [app]. eapply IH; eauto.
Qed.
Lemma visit_pass again cs ctx f c s l : customs cs ctx c (l_cur l) [] s = CuPass [] -> visit again cs ctx f c s l = visit again [] ctx f c s l.
Proof. intros H. unfold visit. rewrite H. reflexivity. Qed.

Scheme told_mut := Induction for told Sort Prop with told_all_mut := Induction for told_all Sort Prop.

Section Sound.
  Context (funcs : funcref -> func) (cs : list customFunc).

  Definition node_sound ctx f n es regs (last : bool) : Prop :=
    exists N, forall fuel, N <= fuel -> forall level s p r l,
    ps_file s = f -> nth_error (ps_heap s) p = Some r -> l_cur l = Some p ->
    exists l', inspect (visit (deeper fuel funcs cs level) cs ctx f) n s l = Ok (changed es regs p s, l') /\
      l_cur l' = Some p /\ (l_err l' = None <-> last = false).
  Definition list_sound ctx f ns es regs (last : bool) : Prop :=
    exists N, forall fuel, N <= fuel -> forall level s p r l,
    ps_file s = f -> nth_error (ps_heap s) p = Some r -> l_cur l = Some p ->
    (ns = [] -> l_err l = None) ->
    exists l', walk (visit (deeper fuel funcs cs level) cs ctx f) ns s l = Ok (changed es regs p s, l') /\
      l_cur l' = Some p /\ (l_err l' = None <-> last = false).

  Lemma helper_sound ctx' f' g es regs last fuel level s p r :
    (forall s p r l,
     ps_file s = f' -> nth_error (ps_heap s) p = Some r -> l_cur l = Some p ->
     exists l', inspect (visit (deeper fuel funcs cs (S level)) cs ctx' f') (fn_body (funcs g)) s l
                = Ok (changed es regs p s, l') /\
       l_cur l' = Some p /\ (l_err l' = None <-> last = false)) ->
    fn_ctx (funcs g) f' = Ok ctx' -> ctx' <> "" ->
    nth_error (ps_heap s) p = Some r ->
    exists e, parseFunction (S fuel) funcs cs g (Some p) f' (S level) s
              = Ok (changed es regs p (set_file f' s), e) /\ (e = None <-> last = false).
  Proof.
    intros H Hctx Hne Hp. rewrite parseFunction_eq. cbn zeta. cbn [Nat.eqb bind].
    cbn [set_file ps_file]. rewrite Hctx. cbn [bind]. rewrite (proj2 (String.eqb_neq _ _) Hne).
    destruct (H (set_file f' s) p r (mkL (Some p) None)) as (l' & E & Hc & He); auto.
    change (mkPS f' (ps_heap s) (ps_comps s)) with (set_file f' s).
    rewrite E. cbn [bind fst snd]. rewrite Hc.
    destruct (l_err l') as [e|].
    - exists (Some e). split; auto.
    - unfold deref. rewrite (changed_heap es regs p (set_file f' s) r) by auto. rewrite andb_false_r.
      exists None. split; auto.
  Qed.

  Lemma told_sound ctx f n es regs last : told funcs cs ctx f n es regs last -> node_sound ctx f n es regs last.
  Proof.
    revert ctx f n es regs last.
    apply (told_mut funcs cs (fun ctx f n es regs last _ => node_sound ctx f n es regs last)
             (fun ctx f ns es regs last _ => list_sound ctx f ns es regs last)); unfold node_sound, list_sound.
    - intros ctx f ch es regs last _ (N & IH). exists N. intros fuel Hf level s p r l Hs Hp Hl.
      rewrite inspect_eq. cbn [bind fst snd]. eapply IH; eauto.
    - intros ctx f c ch d l0 regs last A _ (N & IH). exists N. intros fuel Hf level s p r l Hs Hp Hl.
      rewrite inspect_eq. unfold visit at 1. rewrite Hl, (answered_customs _ _ _ _ _ A p s r Hs Hp). cbn [bind fst snd].
      assert (E : store p (d r) s = changed [d] [] p s) by (unfold changed; rewrite Hp; reflexivity).
      rewrite E. change (d :: l0) with ([d] ++ l0)%list. change regs with ([] ++ regs)%list. rewrite changed_app.
      apply (IH fuel Hf level _ p (applied [d] r)); [rewrite changed_file; auto|now apply changed_heap|reflexivity|reflexivity].
    - intros ctx f c ch A Hn. exists 1. intros fuel Hfuel level s p r l Hs Hp Hl.
      destruct fuel as [|fuel]; [lia|].
      rewrite inspect_eq. cbn beta iota.
      assert (V : exists e, visit (deeper (S fuel) funcs cs level) cs ctx f c s l = Ok (s, mkL (Some p) (Some e), false)).
      { rewrite visit_pass by (rewrite Hl; exact (answered_customs _ _ _ _ _ A p s r Hs Hp)).
        unfold visit. cbn [customs]. rewrite Hl.
        destruct Hn as [[Hpass Hd]|[Hpass [e He]]].
        - apply passes_ArgIndex in Hpass. rewrite Hpass, Hs.
          destruct Hd as [Hd|(nf & Hland & [Hd|(g & Hd & Hctx)])]; rewrite Hd.
          + eauto.
          + eexists. destruct nf as [f'|]; simpl in *; subst; rewrite ?set_file_same; reflexivity.
          + unfold deeper. rewrite parseFunction_eq.
            assert (E : match nf with Some f0 => set_file f0 s | None => s end = s).
            { destruct nf as [f'|]; simpl in *; subst; rewrite ?set_file_same; reflexivity. }
            rewrite E. cbn zeta. cbn [Nat.eqb bind]. rewrite set_file_same, Hs, Hctx. cbn [bind].
            rewrite String.eqb_refl. cbn [bind fst snd]. eauto.
        - apply not_passes in Hpass. rewrite Hpass, Hs, He. eauto. }
      destruct V as [e V]. rewrite V. cbn [bind fst snd].
      exists (mkL (Some p) (Some e)). rewrite (changed_nil p s r Hp).
      split; auto. split; auto. split; discriminate.
    - intros ctx f c ch name recv es regs last A Hpass Hobj Hrecv _ (N & IH).
      exists N. intros fuel Hfuel level s p r l Hs Hp Hl.
      rewrite inspect_eq.
      assert (V : visit (deeper fuel funcs cs level) cs ctx f c s l = Ok (s, mkL (Some p) None, true)).
      { rewrite visit_pass by (rewrite Hl; exact (answered_customs _ _ _ _ _ A p s r Hs Hp)).
        unfold visit. cbn [customs]. apply not_passes in Hpass. rewrite Hpass, Hs, Hobj, Hl.
        destruct recv as [rt|]; [|reflexivity].
        destruct (String.eqb rt ginContext) eqn:E; [|reflexivity].
        apply String.eqb_eq in E. exfalso. apply Hrecv. now subst. }
      rewrite V. cbn [bind fst snd]. eapply IH; eauto.
    - intros ctx f c ch name es1 regs1 es2 regs2 last A Hpass Hobj G _ (N & IH).
      exists N. intros fuel Hfuel level s p r l Hs Hp Hl.
      rewrite inspect_eq. apply not_passes in Hpass.
      rewrite visit_pass by (rewrite Hl; exact (answered_customs _ _ _ _ _ A p s r Hs Hp)).
      rewrite (gin_call_visit _ _ _ _ _ G _ ctx c p s r l); auto.
      cbn [bind fst snd]. change (recorded es1 :: es2) with ([recorded es1] ++ es2)%list. rewrite changed_app, after_changed.
      apply (IH fuel Hfuel level _ p (recorded es1 r)); [rewrite changed_file; auto|now apply (changed_heap [recorded es1])|reflexivity|reflexivity].
    - intros ctx f c ch nf g ctx' es1 regs1 es2 regs2 last A Hpass Hd Hctx Hne _ (N1 & IH1) _ (N2 & IH2).
      exists (S (max N1 N2)). intros fuel Hfuel level s p r l Hs Hp Hl.
      destruct fuel as [|fuel]; [lia|].
      rewrite inspect_eq. rewrite visit_pass by (rewrite Hl; exact (answered_customs _ _ _ _ _ A p s r Hs Hp)).
      apply passes_ArgIndex in Hpass.
      unfold visit at 1. cbn [customs]. rewrite Hpass, Hs, Hd, Hl.
      set (s1 := match nf with Some f0 => set_file f0 s | None => s end).
      assert (Hs1 : ps_file s1 = landed nf f) by (destruct nf; simpl; auto).
      assert (Hp1 : nth_error (ps_heap s1) p = Some r) by (destruct nf; auto).
      destruct (helper_sound ctx' (landed nf f) g es1 regs1 false fuel level s1 p r) as (e & E & He); auto.
      { intros. eapply IH1; eauto. lia. }
      unfold deeper. rewrite Hs1, E. cbn [bind fst snd].
      destruct e as [e|]; [destruct He as [_ He]; discriminate (He eq_refl)|].
      cbn [bind fst snd].
      assert (Es : set_file f (changed es1 regs1 p (set_file (landed nf f) s1)) = changed es1 regs1 p s).
      { rewrite <- changed_set_file, set_file_set_file. f_equal.
        destruct nf; subst s1; subst f; unfold set_file; simpl; now destruct s. }
      rewrite Es, changed_app.
      apply (IH2 (S fuel) ltac:(lia) level _ p (applied es1 r)); [rewrite changed_file; auto|now apply changed_heap|reflexivity|reflexivity].
    - intros ctx f. exists 0. intros fuel _ level s p r l Hs Hp Hl Hn.
      exists l. simpl. rewrite (changed_nil p s r Hp). repeat split; auto.
    - intros ctx f n es regs last _ (N & IH). exists N. intros fuel Hfuel level s p r l Hs Hp Hl _.
      destruct (IH fuel Hfuel level s p r l) as (l' & E & H); auto. rewrite walk_cons, E.
      cbn [bind fst snd]. exists l'. split; [reflexivity|exact H].
    - intros ctx f n n' ns es1 regs1 l1 es2 regs2 last _ (N1 & IH1) _ (N2 & IH2).
      exists (max N1 N2). intros fuel Hfuel level s p r l Hs Hp Hl _.
      destruct (IH1 fuel) with (level := level) (s := s) (p := p) (r := r) (l := l) as (l' & E & Hc & He); auto; [lia|].
      remember (n' :: ns) as tl eqn:Etl. rewrite walk_cons, E. cbn [bind fst snd]. rewrite changed_app.
      apply (IH2 fuel ltac:(lia) level _ p (applied es1 r)); [rewrite changed_file; auto|now apply changed_heap|auto|subst; discriminate].
  Qed.

  Lemma told_all_sound ctx f ns es regs last : told_all funcs cs ctx f ns es regs last -> list_sound ctx f ns es regs last.
  Proof.
    intros H. apply to_plain in H. destruct (told_sound _ _ _ _ _ _ H) as (N & S). exists N. intros fuel Hf level s p r l Hs Hp Hl Hn.
    destruct (S fuel Hf level s p r (mkL (l_cur l) None)) as (l' & E & X); auto. rewrite inspect_eq in E. cbn [bind fst snd l_cur] in E.
    exists l'. destruct ns as [|n ns].
    - cbn in E. destruct l as [cu er]. cbn in *. rewrite (Hn eq_refl). auto.
    - split; [|exact X]. destruct n as [c ch]. rewrite walk_cons in *. rewrite inspect_eq in *. destruct c as [c|]; [|exact E].
      revert E. unfold visit. cbn [l_cur]. destruct l as [cu er]. cbn [l_cur]. auto.
  Qed.
End Sound.

(** Up to the calls in the body. *)
Lemma parse0_start fuel prog g f ctx s r :
  ps_file s = f -> nth_error (ps_heap s) 0 = Some r -> fn_ctx (pr_funcs prog g) f = Ok ctx -> ctx <> "" ->
  let s1 := mkPS f (set_nth 0 (comment_of (fn_doc (pr_funcs prog g)) r) (ps_heap s)) (ps_comps s) in
  parse0 (S fuel) prog g s =
  (x <- inspect (visit (deeper fuel (pr_funcs prog) (pr_customs prog) 0) (pr_customs prog) ctx f) (fn_body (pr_funcs prog g)) s1 (mkL (Some 0) None) ;;
   match l_err (snd x) with
   | Some e => Ok (fst x)
   | None => match deref (l_cur (snd x)) (fst x) with None => Panic | Some _ => Ok (fst x) end
   end).
Proof.
  intros Hs Hp Hctx Hne. cbv zeta. unfold parse0. rewrite parseFunction_eq. cbn zeta. cbn [Nat.eqb]. rewrite set_file_same.
  set (doc := fn_doc (pr_funcs prog g)).
  assert (E : (if (FormatDoc doc =? "")%string then Ok s
               else match nth_error (ps_heap s) 0 with
                    | Some r0 => Ok (store 0 (with_doc (TrimSpace (FormatDoc doc)) r0) s)
                    | None => Panic
                    end) = Ok (mkPS f (set_nth 0 (comment_of doc r) (ps_heap s)) (ps_comps s))).
  { unfold comment_of. destruct (String.eqb _ _).
    - rewrite set_nth_same by auto. subst f. now destruct s.
    - rewrite Hp. unfold store. now rewrite Hs. }
  rewrite E. cbn [bind ps_file]. rewrite Hctx. cbn [bind]. rewrite (proj2 (String.eqb_neq _ _) Hne), Hs.
  destruct (inspect _ _ _ _) as [[s2 l2]| | |]; cbn [bind fst snd]; auto.
  destruct (l_err l2); cbn [bind fst]; auto. destruct (deref _ _); cbn [bind fst]; auto. destruct (_ && _); reflexivity.
Qed.

Lemma parse0_told prog g es regs last f ctx :
  told (pr_funcs prog) (pr_customs prog) ctx f (fn_body (pr_funcs prog g)) es regs last ->
  fn_ctx (pr_funcs prog g) f = Ok ctx -> ctx <> "" ->
  exists N, forall fuel, N <= fuel -> forall s r,
  ps_file s = f -> nth_error (ps_heap s) 0 = Some r ->
  parse0 fuel prog g s =
  Ok (mkPS f (set_nth 0 (applied es (comment_of (fn_doc (pr_funcs prog g)) r)) (ps_heap s)) (register (ps_comps s) regs)).
Proof.
  intros D Hctx Hne. apply told_sound in D. destruct D as (N & D).
  exists (S N). intros fuel Hf s r Hs Hp. destruct fuel as [|fuel]; [lia|].
  rewrite (parse0_start fuel prog g f ctx s r Hs Hp Hctx Hne). set (doc := fn_doc (pr_funcs prog g)).
  set (s1 := mkPS f (set_nth 0 (comment_of doc r) (ps_heap s)) (ps_comps s)).
  assert (Hp1 : nth_error (ps_heap s1) 0 = Some (comment_of doc r)) by (eapply nth_set_nth; eauto).
  destruct (D fuel ltac:(lia) 0 s1 0 (comment_of doc r) (mkL (Some 0) None)) as (l' & E' & Hc & He); auto.
  rewrite E'. cbn [bind fst snd].
  assert (R : changed es regs 0 s1 = mkPS f (set_nth 0 (applied es (comment_of doc r)) (ps_heap s)) (register (ps_comps s) regs)).
  { unfold changed. rewrite Hp1. unfold s1. cbn [ps_heap ps_file ps_comps]. now rewrite set_set_nth. }
  rewrite R in *. destruct (l_err l') as [e|]; auto. rewrite Hc. unfold deref. cbn [ps_heap]. now rewrite (nth_set_nth 0 _ _ _ Hp).
Qed.

Lemma parseRoute_told prog r f g op ctx es regs last :
  handler_of prog r f g op ->
  fn_ctx (pr_funcs prog g) f = Ok ctx -> ctx <> "" ->
  told (pr_funcs prog) (pr_customs prog) ctx f (fn_body (pr_funcs prog g)) es regs last ->
  exists N, forall fuel, N <= fuel -> forall comps,
  parseRoute fuel prog r comps = Ok (applied es (prepared (fn_doc (pr_funcs prog g)) op r), register comps regs).
Proof.
  intros (pkg & name & more & files & before & fname & ds1 & d & ds2 & behind &
          Hh & Hplain & Hid & Hmore & Hpkg & -> & Hbase & Hbef & Hname & Huniq & Hcase) Hctx Hne D.
  destruct (parse0_told prog g es regs last f ctx D Hctx Hne) as (N & S0).
  exists N. intros fuel Hf comps.
  unfold parseRoute. rewrite Hh, split_runtime_name; [|discriminate|constructor; auto].
  cbn [hp_handlerParts]. unfold PackagePath. cbn [hp_pathParts].
  change "/" with (str1 "/"). rewrite join_split, (proj2 (mangle_id_iff pkg) Hplain), Hpkg.
  rewrite (find_file_at before fname f _ behind _ Hbase Hbef).
  set (r0 := with_pathParams (ExtractParamsFromPath (rt_path r)) r).
  set (s0 := mkPS f [r0] comps).
  rewrite decls_one by (subst name; auto). cbn [decls]. rewrite Hname, String.eqb_refl. cbn [ps_file s0].
  assert (G : forall r1, parse0 fuel prog g (mkPS f [r1] comps) =
    Ok (mkPS f [applied es (comment_of (fn_doc (pr_funcs prog g)) r1)] (register comps regs))).
  { intros r1. rewrite (S0 fuel Hf (mkPS f [r1] comps) r1); auto. }
  change (rt_line r0) with (rt_line r).
  destruct Hcase as [(Hl & -> & ->)|(Hl & Hlit & ->)].
  - rewrite <- Hl, Z.eqb_refl. cbn [nth_error ps_heap s0].
    unfold store. cbn [ps_file ps_heap ps_comps set_nth s0]. rewrite G. cbn [bind ps_heap nth_error].
    reflexivity.
  - assert (E : (rt_line r =? fd_line d f)%Z = false) by (apply Z.eqb_neq; congruence). rewrite E.
    assert (ST : stays fuel prog f [g]).
    { intros g' s s' [<-|[]] [Hs [r1 Er]] Hp0.
      rewrite (S0 fuel Hf s r1 Hs Er) in Hp0. injection Hp0 as <-. split; [reflexivity|].
      destruct (ps_heap s); [discriminate|]. eexists. reflexivity. }
    assert (RD : ready f s0) by (split; [reflexivity|eexists; reflexivity]).
    rewrite (inlines_lits fuel prog (rt_line r) f).
    + rewrite Hlit. cbn [parse_each]. unfold s0. rewrite G. cbn [bind ps_heap nth_error]. reflexivity.
    + apply Forall_forall. intros l _ Hst s Hs. now apply inline_lits.
    + now rewrite Hlit.
    + exact RD.
Qed.

(** ** The route nobody points to any more *)
Definition keeps (q : nat) (s s' : pstate) : Prop :=
  q < List.length (ps_heap s) -> nth_error (ps_heap s') q = nth_error (ps_heap s) q /\ List.length (ps_heap s) <= List.length (ps_heap s').
Lemma keeps_refl q s : keeps q s s.
Proof. intros H. auto. Qed.
Lemma keeps_heap q s s' : ps_heap s' = ps_heap s -> keeps q s s'.
Proof. intros E H. now rewrite E. Qed.
Lemma keeps_trans q a b c : keeps q a b -> keeps q b c -> keeps q a c.
Proof. intros A B H. destruct (A H) as (A1 & A2). destruct (B ltac:(lia)) as (B1 & B2). split; [congruence|lia]. Qed.
Lemma keeps_store q p r s : p <> q -> keeps q s (store p r s).
Proof. intros N H. cbn [store ps_heap]. rewrite nth_set_other by auto. rewrite set_nth_length. auto. Qed.
Lemma keeps_alloc q r s : keeps q s (alloc r s).
Proof. intros H. cbn [alloc ps_heap]. rewrite nth_error_app1 by auto. rewrite app_length. split; [auto|lia]. Qed.

Definition aside (q : nat) (o : option nat) (s : pstate) : Prop := o <> Some q /\ q < List.length (ps_heap s).

Lemma customs_keeps q cs ctx c cur s : forall ops p s', customs cs ctx c cur ops s = CuTaken p s' -> aside q cur s -> keeps q s s' /\ p <> q.
Proof.
  induction cs as [|f rest IH]; intros ops p s' H A; cbn [customs] in H; [discriminate|].
  destruct (f ctx c (ps_file s) (deref cur s)) as [lo| |r|r].
  - eauto.
  - discriminate.
  - destruct A as (A & L). destruct cur as [k|]; injection H as <- <-.
    + assert (k <> q) by congruence. split; [now apply keeps_store|auto].
    + split; [apply keeps_alloc|lia].
  - destruct A as (A & L). injection H as <- <-. split; [apply keeps_alloc|lia].
Qed.

Lemma build_keeps q c ops m cur s s' l : build c ops m cur s = Ok (s', l) -> cur <> Some q -> keeps q s s' /\ l_cur l <> Some q.
Proof.
  unfold build. intros H N. destruct (snd (eval_ops _ _ _ _)) as [vals|e| |]; try discriminate.
  - destruct (m vals) as [change|].
    + destruct cur as [p|]; [|discriminate]. destruct (nth_error _ p) as [r|]; [|discriminate]. injection H as <- <-.
      split; [|exact N]. eapply keeps_trans; [apply (keeps_heap q s (add_comps (fst (eval_ops (ps_file s) (c_args c) 0 ops)) s)); reflexivity|].
      apply keeps_store. congruence.
    + injection H as <- <-. split; [now apply keeps_heap|discriminate].
  - injection H as <- <-. split; [now apply keeps_heap|discriminate].
Qed.

Section Keeps.
  Context (q : nat) (again : funcref -> option nat -> file -> pstate -> outcome (pstate * option string)) (cs : list customFunc) (ctx : string) (here : file).
  Hypothesis Ha : forall g cur f s s' e, again g cur f s = Ok (s', e) -> aside q cur s -> keeps q s s'.

  Lemma visit_keeps c s l s' l' b : visit again cs ctx here c s l = Ok (s', l', b) -> aside q (l_cur l) s -> keeps q s s' /\ l_cur l' <> Some q.
  Proof.
    intros H A. unfold visit in H. destruct (customs cs ctx c (l_cur l) [] s) as [|p s1|ops] eqn:C.
    - injection H as <- <- <-. split; [apply keeps_refl|apply A].
    - injection H as <- <- <-. destruct (customs_keeps q _ _ _ _ _ _ _ _ C A). split; auto. cbn. congruence.
    - destruct (ArgIndex ctx c).
      + destruct (c_decl c (ps_file s)) as [|nf [g|]].
        * injection H as <- <- <-. split; [apply keeps_refl|apply A].
        * set (s1 := match nf with Some f => set_file f s | None => s end) in *.
          assert (H1 : ps_heap s1 = ps_heap s) by (unfold s1; destruct nf; reflexivity).
          destruct (again g (l_cur l) (ps_file s1) s1) as [[s2 e]| | |] eqn:E; try discriminate. cbn [bind fst snd] in H.
          assert (K : keeps q s s2).
          { eapply keeps_trans; [apply (keeps_heap q s s1 H1)|]. eapply Ha; [exact E|]. destruct A as (A & L). split; [exact A|now rewrite H1]. }
          destruct e; injection H as <- <- <-; (split; [|apply A]); auto.
        * injection H as <- <- <-. split; [|apply A]. apply keeps_heap. now destruct nf.
      + destruct (c_obj c (ps_file s)) as [e|name recv].
        * injection H as <- <- <-. split; [apply keeps_refl|apply A].
        * destruct recv as [rt|]; [|injection H as <- <- <-; split; [apply keeps_refl|apply A]].
          destruct (String.eqb rt ginContext); [|injection H as <- <- <-; split; [apply keeps_refl|apply A]].
          destruct (method name) as [[[mops m] stops]|]; [|injection H as <- <- <-; split; [apply keeps_refl|apply A]].
          destruct (build c (ops ++ mops) m (l_cur l) s) as [[s2 l2]| | |] eqn:E; try discriminate. cbn [bind fst snd] in H.
          injection H as <- <- <-. eapply build_keeps; [exact E|apply A].
  Qed.

  Lemma aside_on s s' o o' : keeps q s s' -> aside q o s -> o' <> Some q -> aside q o' s'.
  Proof. intros K (_ & L) N. split; auto. destruct (K L). lia. Qed.

  Lemma inspect_keeps n : forall s l s' l', inspect (visit again cs ctx here) n s l = Ok (s', l') -> aside q (l_cur l) s -> keeps q s s' /\ l_cur l' <> Some q.
  Proof.
    induction n as [c ch IH] using node_ind'. intros s l s' l' H A. rewrite inspect_eq in H.
    assert (W : forall s l s' l', walk (visit again cs ctx here) ch s l = Ok (s', l') -> aside q (l_cur l) s -> keeps q s s' /\ l_cur l' <> Some q).
    { clear s l s' l' H A. induction ch as [|n ns IHns]; intros s l s' l' H A.
      - simpl in H. injection H as <- <-. split; [apply keeps_refl|apply A].
      - rewrite walk_cons in H. inversion IH as [|? ? Hn Hns]; subst.
        destruct (inspect (visit again cs ctx here) n s l) as [[s1 l1]| | |] eqn:E; try discriminate. cbn [bind fst snd] in H.
        destruct (Hn _ _ _ _ E A) as (K & N). destruct (IHns Hns _ _ _ _ H) as (K' & N'); [eapply aside_on; eauto|].
        split; auto. eapply keeps_trans; eauto. }
    destruct c as [c|].
    - destruct (visit again cs ctx here c s l) as [[[s1 l1] b]| | |] eqn:E; try discriminate. cbn [bind fst snd] in H.
      destruct (visit_keeps _ _ _ _ _ _ E A) as (K & N). destruct b.
      + destruct (W _ _ _ _ H) as (K' & N'); [eapply aside_on; eauto|]. split; auto. eapply keeps_trans; eauto.
      + injection H as <- <-. auto.
    - cbn [bind fst snd] in H. eapply W; [exact H|exact A].
  Qed.

  Lemma walk_keeps ns : forall s l s' l', walk (visit again cs ctx here) ns s l = Ok (s', l') -> aside q (l_cur l) s -> keeps q s s' /\ l_cur l' <> Some q.
  Proof.
    induction ns as [|n ns IHns]; intros s l s' l' H A.
    - simpl in H. injection H as <- <-. split; [apply keeps_refl|apply A].
    - rewrite walk_cons in H. destruct (inspect (visit again cs ctx here) n s l) as [[s1 l1]| | |] eqn:E; try discriminate. cbn [bind fst snd] in H.
      destruct (inspect_keeps _ _ _ _ _ E A) as (K & N). destruct (IHns _ _ _ _ H) as (K' & N'); [eapply aside_on; eauto|].
      split; auto. eapply keeps_trans; eauto.
  Qed.
End Keeps.

Lemma function_keeps q n : forall funcs cs g cur f level s s' e,
  parseFunction n funcs cs g cur f (S level) s = Ok (s', e) -> aside q cur s -> keeps q s s'.
Proof.
  induction n as [|n IH]; intros funcs cs g cur f level s s' e H A; [discriminate|].
  rewrite parseFunction_eq in H. cbn zeta in H. cbn [Nat.eqb bind] in H. cbn [set_file ps_file] in H.
  destruct (fn_ctx (funcs g) f) as [ctx| | |]; try discriminate. cbn [bind] in H.
  destruct (String.eqb ctx ""); [injection H as <- <-; now apply keeps_heap|].
  change (mkPS f (ps_heap s) (ps_comps s)) with (set_file f s) in H.
  destruct (inspect _ (fn_body (funcs g)) (set_file f s) (mkL cur None)) as [[s2 l2]| | |] eqn:E; try discriminate. cbn [bind fst snd] in H.
  assert (K : keeps q s s2).
  { eapply keeps_trans; [apply (keeps_heap q s (set_file f s) eq_refl)|].
    eapply (inspect_keeps q) in E; [apply E| |exact A].
    intros g' cur' f' s1 s1' e' H' A'. eapply IH; eauto. }
  destruct (l_err l2); [injection H as <- <-; auto|]. destruct (deref _ _); [|discriminate].
  destruct (_ && _); injection H as <- <-; auto.
Qed.

Lemma customs_afresh cs ctx c cur s : answers_afresh cs ctx c (ps_file s) -> exists r', customs cs ctx c cur [] s = CuTaken (List.length (ps_heap s)) (alloc r' s).
Proof.
  intros (before & cu & behind & -> & D & F). assert (G : forall ops, exists r', customs (before ++ cu :: behind) ctx c cur ops s = CuTaken (List.length (ps_heap s)) (alloc r' s)).
  { induction before as [|d before IH]; intros ops.
    - cbn [app customs]. destruct (F (deref cur s)) as (r' & E). rewrite E. eauto.
    - cbn [app customs]. rewrite D by now left. apply IH. intros; apply D; now right. }
  apply G.
Qed.

Lemma walk_split v a b s l s' l' : walk v (a ++ b) s l = Ok (s', l') -> exists s1 l1, walk v a s l = Ok (s1, l1) /\ walk v b s1 l1 = Ok (s', l').
Proof. rewrite walk_app. destruct (walk v a s l) as [[s1 l1]| | |]; try discriminate. cbn [bind fst snd]. eauto. Qed.

Lemma parse0_afresh prog g f ctx pre c ch post es regs last :
  fn_body (pr_funcs prog g) = Node None (pre ++ Node (Some c) ch :: post) ->
  told_all (pr_funcs prog) (pr_customs prog) ctx f pre es regs last ->
  answers_afresh (pr_customs prog) ctx c f ->
  fn_ctx (pr_funcs prog g) f = Ok ctx -> ctx <> "" ->
  exists N, forall fuel, N <= fuel -> forall s r s',
  ps_file s = f -> nth_error (ps_heap s) 0 = Some r -> parse0 fuel prog g s = Ok s' ->
  nth_error (ps_heap s') 0 = Some (applied es (comment_of (fn_doc (pr_funcs prog g)) r)).
Proof.
  intros B T F Hctx Hne. apply told_all_sound in T. destruct T as (N & T).
  exists (S N). intros fuel Hf s r s' Hs Hp E. destruct fuel as [|fuel]; [lia|].
  rewrite (parse0_start fuel prog g f ctx s r Hs Hp Hctx Hne) in E. set (doc := fn_doc (pr_funcs prog g)) in *.
  set (s1 := mkPS f (set_nth 0 (comment_of doc r) (ps_heap s)) (ps_comps s)) in *.
  assert (Hp1 : nth_error (ps_heap s1) 0 = Some (comment_of doc r)) by (eapply nth_set_nth; eauto).
  destruct (inspect _ (fn_body (pr_funcs prog g)) s1 (mkL (Some 0) None)) as [[s2 l2]| | |] eqn:I; try discriminate. cbn [bind fst snd] in E.
  assert (s2 = s') as -> by (destruct (l_err l2); [congruence|destruct (deref _ _); congruence]). clear E.
  rewrite B, inspect_eq in I. cbn [bind fst snd l_cur] in I. apply walk_split in I as (s3 & l3 & I1 & I2).
  destruct (T fuel ltac:(lia) 0 s1 0 (comment_of doc r) (mkL (Some 0) None)) as (l' & E' & Hc & _); auto.
  rewrite E' in I1. injection I1 as <- <-.
  pose proof (changed_heap es regs 0 s1 _ Hp1) as Hp3. set (s3 := changed es regs 0 s1) in *.
  assert (L3 : 0 < List.length (ps_heap s3)) by (destruct (ps_heap s3); [discriminate|cbn; lia]).
  rewrite walk_cons, inspect_eq in I2.
  destruct (customs_afresh (pr_customs prog) ctx c (l_cur l') s3) as (r' & C). { unfold s3. now rewrite changed_file. }
  unfold visit at 1 in I2. rewrite C in I2. cbn [bind fst snd] in I2.
  assert (Ha : forall g cur f s s' e, deeper fuel (pr_funcs prog) (pr_customs prog) 0 g cur f s = Ok (s', e) -> aside 0 cur s -> keeps 0 s s').
  { intros g' cur' f' x x' e' H' A'. eapply function_keeps; eauto. }
  destruct (walk _ ch (alloc r' s3) _) as [[s4 l4]| | |] eqn:W; try discriminate. cbn [bind fst snd] in I2.
  assert (A : aside 0 (Some (List.length (ps_heap s3))) (alloc r' s3)).
  { split; [intros [= Z]; lia|]. cbn [alloc ps_heap]. rewrite app_length. lia. }
  destruct (walk_keeps 0 _ _ _ _ Ha _ _ _ _ _ W A) as (K1 & N1).
  destruct (walk_keeps 0 _ _ _ _ Ha _ _ _ _ _ I2) as (K2 & N2). { eapply aside_on; eauto. }
  assert (K : keeps 0 s3 s') by (eapply keeps_trans; [apply keeps_alloc|eapply keeps_trans; eauto]).
  destruct (K L3) as (K' & _). congruence.
Qed.

Lemma parseRoute_afresh prog r f g op ctx pre c ch post es regs last :
  handler_of prog r f g (Some op) ->
  fn_body (pr_funcs prog g) = Node None (pre ++ Node (Some c) ch :: post) ->
  told_all (pr_funcs prog) (pr_customs prog) ctx f pre es regs last ->
  answers_afresh (pr_customs prog) ctx c f ->
  fn_ctx (pr_funcs prog g) f = Ok ctx -> ctx <> "" ->
  exists N, forall fuel, N <= fuel -> forall comps r' comps', parseRoute fuel prog r comps = Ok (r', comps') ->
  r' = applied es (prepared (fn_doc (pr_funcs prog g)) (Some op) r).
Proof.
  intros (pkg & name & more & files & before & fname & ds1 & d & ds2 & behind &
          Hh & Hplain & Hid & Hmore & Hpkg & -> & Hbase & Hbef & Hname & Huniq & Hcase) B T F Hctx Hne.
  destruct (parse0_afresh prog g f ctx pre c ch post es regs last B T F Hctx Hne) as (N & S0).
  exists N. intros fuel Hf comps r' comps' E.
  unfold parseRoute in E. rewrite Hh, split_runtime_name in E; [|discriminate|constructor; auto].
  cbn [hp_handlerParts] in E. unfold PackagePath in E. cbn [hp_pathParts] in E.
  change "/" with (str1 "/") in E. rewrite join_split, (proj2 (mangle_id_iff pkg) Hplain), Hpkg in E.
  rewrite (find_file_at before fname f _ behind _ Hbase Hbef) in E.
  set (r0 := with_pathParams (ExtractParamsFromPath (rt_path r)) r) in E.
  rewrite decls_one in E by (subst name; auto). cbn [decls] in E. rewrite Hname, String.eqb_refl in E. cbn [ps_file] in E.
  change (rt_line r0) with (rt_line r) in E.
  destruct Hcase as [(Hl & -> & Ho)|(_ & _ & Ho)]; [|discriminate]. injection Ho as ->.
  rewrite <- Hl, Z.eqb_refl in E. cbn [nth_error ps_heap] in E.
  unfold store in E. cbn [ps_file ps_heap ps_comps set_nth] in E.
  destruct (parse0 fuel prog (fd_ref d) _) as [s'| | |] eqn:P; try discriminate. cbn [bind] in E.
  pose proof (S0 fuel Hf (mkPS f [with_operationId (pr_lowerCamel prog name) r0] comps) _ _ eq_refl eq_refl P) as X.
  destruct (ps_heap s') as [|x h]; [discriminate|]. cbn [nth_error] in X. injection X as ->. injection E as <- <-. reflexivity.
Qed.
