From Coq Require Import List String Ascii Bool ZArith Arith Lia.
From Verif Require Import BaseStr M_Types M_Paths M_Tags M_Collect M_TypeTrav P_TypeTrav M_Parse S_Parse.
Import ListNotations.
Local Open Scope string_scope.

Local Arguments method : simpl never.
Local Arguments ParseResultToField : simpl never.

(** ** Lists and heaps *)
Lemma set_nth_length {A} n (x : A) l : List.length (set_nth n x l) = List.length l.
Proof. revert n; induction l as [|y l IH]; intros [|n]; simpl; auto. Qed.

Lemma nth_set_nth {A} n (x y : A) l : nth_error l n = Some y -> nth_error (set_nth n x l) n = Some x.
Proof. revert n; induction l as [|z l IH]; intros [|n] H; simpl in *; try discriminate; auto. Qed.

Lemma nth_set_other {A} n m (x : A) l : n <> m -> nth_error (set_nth n x l) m = nth_error l m.
Proof. revert n m; induction l as [|z l IH]; intros [|n] [|m] H; simpl in *; auto; congruence. Qed.

Lemma set_set_nth {A} n (x y : A) l : set_nth n x (set_nth n y l) = set_nth n x l.
Proof. revert n; induction l as [|z l IH]; intros [|n]; simpl; auto. now rewrite IH. Qed.

Lemma set_nth_same {A} n (x : A) l : nth_error l n = Some x -> set_nth n x l = l.
Proof.
  revert n; induction l as [|z l IH]; intros [|n] H; simpl in *; try discriminate.
  - congruence.
  - now rewrite IH.
Qed.

(** ** Recording *)
Lemma recorded_nil r : recorded [] r = r.
Proof. destruct r. unfold recorded. simpl. now rewrite !app_nil_r. Qed.

Lemma recorded_app a b r : recorded (a ++ b) r = recorded b (recorded a r).
Proof.
  destruct r. unfold recorded, AddReturnType, paths_of, queries_of, bodies_of, returns_of,
    reqHeaders_of, respHeaders_of. simpl.
  rewrite !flat_map_app, fold_left_app, !app_assoc. reflexivity.
Qed.

(** The state after recording at a pointer. *)
Definition after (es : list event) (regs : list Result) (p : nat) (s : pstate) : pstate :=
  match nth_error (ps_heap s) p with
  | Some r => mkPS (ps_file s) (set_nth p (recorded es r) (ps_heap s)) (register (ps_comps s) regs)
  | None => s
  end.

Lemma after_nil p s r : nth_error (ps_heap s) p = Some r -> after [] [] p s = s.
Proof.
  intros H. unfold after. rewrite H, recorded_nil, set_nth_same by auto. now destruct s.
Qed.

Lemma after_app e1 r1 e2 r2 p s :
  after (e1 ++ e2) (r1 ++ r2) p s = after e2 r2 p (after e1 r1 p s).
Proof.
  unfold after. destruct (nth_error (ps_heap s) p) as [r|] eqn:H; [|now rewrite H].
  cbn [ps_heap ps_file ps_comps]. rewrite (nth_set_nth p _ r) by auto.
  rewrite recorded_app, register_app, set_set_nth. reflexivity.
Qed.

Lemma after_file es regs p s : ps_file (after es regs p s) = ps_file s.
Proof. unfold after. destruct (nth_error _ _); reflexivity. Qed.

Lemma after_heap es regs p s r :
  nth_error (ps_heap s) p = Some r -> nth_error (ps_heap (after es regs p s)) p = Some (recorded es r).
Proof. intros H. unfold after. rewrite H. simpl. now apply nth_set_nth with r. Qed.

Lemma after_set_file es regs p s f : after es regs p (set_file f s) = set_file f (after es regs p s).
Proof. unfold after, set_file. simpl. destruct (nth_error _ _); reflexivity. Qed.

Lemma set_file_same s : set_file (ps_file s) s = s.
Proof. now destruct s. Qed.

Lemma set_file_set_file f f' s : set_file f (set_file f' s) = set_file f s.
Proof. reflexivity. Qed.

(** ** Context methods *)
Lemma passes_ArgIndex ctx c : passes ctx c <-> ArgIndex ctx c = true.
Proof.
  unfold passes, ArgIndex. rewrite existsb_exists. split.
  - intros (a & Ha & Hi). exists a. split; auto. rewrite Hi. apply String.eqb_refl.
  - intros (a & Ha & Hi). exists a. split; auto. destruct (a_ident a); [|discriminate].
    now apply String.eqb_eq in Hi as ->.
Qed.

Lemma not_passes ctx c : ~ passes ctx c <-> ArgIndex ctx c = false.
Proof. rewrite passes_ArgIndex. destruct (ArgIndex ctx c); split; congruence. Qed.

Lemma str_in_In x l : str_in x l = true <-> In x l.
Proof.
  unfold str_in. rewrite existsb_exists. split.
  - intros (y & Hy & E). apply String.eqb_eq in E. now subst.
  - intros H. exists x. split; auto. apply String.eqb_refl.
Qed.

Lemma method_documented name x : method name = Some x -> In name documented_methods.
Proof.
  unfold method. intros H.
  repeat match type of H with
  | (if str_in ?n ?l then _ else _) = _ =>
      let E := fresh in destruct (str_in n l) eqn:E;
      [apply str_in_In in E; clear H; simpl in E;
       repeat (destruct E as [E|E]; [subst; unfold documented_methods; simpl; tauto|]); contradiction
      |clear E]
  end.
  discriminate.
Qed.

Lemma method_undocumented name : ~ In name documented_methods -> method name = None.
Proof.
  intros H. destruct (method name) as [x|] eqn:E; auto. exfalso. eauto using method_documented.
Qed.

Lemma eval_ops_status_expr f a b rest v z regs res :
  a_value a f = Ok v -> ParseInt v = Some z -> a_result b f = (regs, Ok res) ->
  eval_ops f (a :: b :: rest) 0 [PStatus; PExpr] = (regs, Ok [AInt z; AResult res]).
Proof.
  intros H1 H2 H3. unfold eval_ops, eval_op, wbind, wret. simpl. rewrite H1. simpl. rewrite H2, H3. simpl.
  now rewrite !app_nil_r.
Qed.

Lemma eval_ops_status f a rest v z :
  a_value a f = Ok v -> ParseInt v = Some z ->
  eval_ops f (a :: rest) 0 [PStatus] = ([], Ok [AInt z]) /\
  eval_ops f (a :: rest) 0 [PStatus; PIgnored] = ([], Ok [AInt z; ANil]).
Proof.
  intros H1 H2. unfold eval_ops, eval_op, wbind, wret. simpl. rewrite H1. simpl. rewrite H2. now simpl.
Qed.

Lemma eval_ops_value f a rest v :
  a_value a f = Ok v -> eval_ops f (a :: rest) 0 [PValue] = ([], Ok [AStr v]).
Proof. intros H1. unfold eval_ops, eval_op, wbind, wret. simpl. rewrite H1. now simpl. Qed.

Lemma eval_ops_expr f a rest regs res :
  a_result a f = (regs, Ok res) -> eval_ops f (a :: rest) 0 [PExpr] = (regs, Ok [AResult res]).
Proof.
  intros H1. unfold eval_ops, eval_op, wbind, wret. simpl. rewrite H1. simpl. now rewrite !app_nil_r.
Qed.

Lemma build_ok c ops m p s regs vals change es r :
  eval_ops (ps_file s) (c_args c) 0 ops = (regs, Ok vals) -> m vals = Some change ->
  nth_error (ps_heap s) p = Some r -> change r = recorded es r ->
  build c ops m (Some p) s = Ok (after es regs p s, mkL (Some p) None).
Proof.
  intros H1 H2 H3 H4. unfold build. rewrite H1. simpl. rewrite H2, H3, H4.
  unfold after, store. rewrite H3. reflexivity.
Qed.

Lemma add_return_recorded n r : add_return n r = recorded [EReturn n] r.
Proof. destruct r. unfold add_return, recorded. simpl. now rewrite !app_nil_r. Qed.
Lemma add_query_recorded n r : add_query n r = recorded [EQuery n] r.
Proof. destruct r. unfold add_query, recorded. simpl. now rewrite !app_nil_r. Qed.
Lemma add_path_recorded n r : add_path n r = recorded [EPath n] r.
Proof. destruct r. unfold add_path, recorded. simpl. now rewrite !app_nil_r. Qed.
Lemma add_body_recorded n r : add_body n r = recorded [EBody n] r.
Proof. destruct r. unfold add_body, recorded. simpl. now rewrite !app_nil_r. Qed.
Lemma add_reqHeader_recorded n r : add_reqHeader n r = recorded [EReqHeader n] r.
Proof. destruct r. unfold add_reqHeader, recorded. simpl. now rewrite !app_nil_r. Qed.
Lemma add_respHeader_recorded n r : add_respHeader n r = recorded [ERespHeader n] r.
Proof. destruct r. unfold add_respHeader, recorded. simpl. now rewrite !app_nil_r. Qed.

Lemma bind_all_recorded f r : bind_all f r = recorded (bind_everything f) r.
Proof.
  unfold bind_all. cbn -[recorded].
  rewrite !add_body_recorded, add_reqHeader_recorded, add_query_recorded, add_path_recorded,
    <- !recorded_app. reflexivity.
Qed.

(** A documented call does what the specification says. *)
Lemma gin_call_visit f name args es regs :
  gin_call f name args es regs ->
  forall again ctx c p s r l,
  c_args c = args -> ArgIndex ctx c = false -> ps_file s = f ->
  c_obj c f = OFunc name (Some ginContext) -> nth_error (ps_heap s) p = Some r -> l_cur l = Some p ->
  visit again [] ctx f c s l = Ok (after es regs p s, mkL (Some p) None, true).
Proof.
  intros G again ctx c p s r l Hargs Hctx Hf Ho Hp Hl.
  unfold visit. cbn [customs]. rewrite Hctx, Hf, Ho, String.eqb_refl, Hl.
  assert (Hm : match method name with
               | None => es = [] /\ regs = []
               | Some (mops, m, stops) =>
                   build c mops m (Some p) s = Ok (after es regs p s, mkL (Some p) None)
               end).
  { destruct G as [name content a b rest v code regs res Hin Hv Hc Hr
                  |name typ content a rest v code Hin Hv Hc
                  |name ev a rest v Hin Hv
                  |name ev a rest regs res Hin Hr
                  |name args Hn].
    - pose proof (eval_ops_status_expr _ _ _ rest _ _ _ _ Hv Hc Hr) as E. rewrite <- Hf, <- Hargs in E.
      simpl in Hin.
      repeat (destruct Hin as [Hin|Hin];
        [injection Hin as <- <-;
         unfold method; cbn [str_in existsb String.eqb Ascii.eqb Bool.eqb orb];
         eapply build_ok; [exact E|reflexivity|exact Hp|apply add_return_recorded]|]).
      contradiction.
    - pose proof (eval_ops_status _ _ rest _ _ Hv Hc) as [E1 E2]. rewrite <- Hf, <- Hargs in E1, E2.
      simpl in Hin.
      repeat (destruct Hin as [Hin|Hin];
        [injection Hin as <- <- <-;
         unfold method; cbn [str_in existsb String.eqb Ascii.eqb Bool.eqb orb];
         eapply build_ok; [first [exact E1|exact E2]|reflexivity|exact Hp|apply add_return_recorded]|]).
      contradiction.
    - pose proof (eval_ops_value _ _ rest _ Hv) as E. rewrite <- Hf, <- Hargs in E.
      simpl in Hin.
      repeat (destruct Hin as [Hin|Hin];
        [injection Hin as <- <-;
         unfold method; cbn [str_in existsb String.eqb Ascii.eqb Bool.eqb orb];
         eapply build_ok; [exact E|reflexivity|exact Hp
          |first [apply add_query_recorded|apply add_body_recorded|apply add_reqHeader_recorded
                 |apply add_respHeader_recorded]]|]).
      contradiction.
    - pose proof (eval_ops_expr _ _ rest _ _ Hr) as E. rewrite <- Hf, <- Hargs in E.
      simpl in Hin.
      repeat (destruct Hin as [Hin|Hin];
        [injection Hin as <- <-;
         unfold method; cbn [str_in existsb String.eqb Ascii.eqb Bool.eqb orb];
         eapply build_ok; [exact E|reflexivity|exact Hp
          |first [apply add_query_recorded|apply add_body_recorded|apply add_reqHeader_recorded
                 |apply bind_all_recorded]]|]).
      contradiction.
    - rewrite method_undocumented by auto. auto. }
  destruct (method name) as [[[mops m] stops]|].
  - rewrite app_nil_l, Hm. simpl. reflexivity.
  - destruct Hm as [-> ->]. rewrite (after_nil p s r Hp). reflexivity.
Qed.

(** ** Walking *)
Definition walk (v : call -> pstate -> locals -> outcome (pstate * locals * bool)) :=
  fix walk (ns : list node) (s : pstate) (l : locals) : outcome (pstate * locals) :=
  match ns with
  | [] => Ok (s, l)
  | n :: rest => y <- inspect v n s l ;; walk rest (fst y) (snd y)
  end.

Lemma walk_cons v n ns s l :
  walk v (n :: ns) s l = (y <- inspect v n s l ;; walk v ns (fst y) (snd y)).
Proof. reflexivity. Qed.

Lemma inspect_eq v c ch s l :
  inspect v (Node c ch) s l =
  (x <- match c with None => Ok (s, mkL (l_cur l) None, true) | Some c => v c s l end ;;
   if snd x then walk v ch (fst (fst x)) (snd (fst x)) else Ok (fst x)).
Proof. reflexivity. Qed.

Definition deeper (fuel : nat) (funcs : funcref -> func) (cs : list customFunc) (level : nat) :=
  fun g' cur' f' s' => parseFunction fuel funcs cs g' cur' f' (S level) s'.

Lemma parseFunction_eq n funcs cs g cur activeFile level s :
  parseFunction (S n) funcs cs g cur activeFile level s =
  (let s := set_file activeFile s in
   s <- (if Nat.eqb level 0 then
           let doc := FormatDoc (fn_doc (funcs g)) in
           if String.eqb doc "" then Ok s
           else match cur with
                | None => Panic
                | Some p => match nth_error (ps_heap s) p with
                            | None => Panic
                            | Some r => Ok (store p (with_doc (TrimSpace doc) r) s)
                            end
                end
         else Ok s) ;;
   ctx <- fn_ctx (funcs g) (ps_file s) ;;
   if String.eqb ctx "" then Ok (s, Some "failed to find context variable name")
   else
     x <- inspect (visit (deeper n funcs cs level) cs ctx activeFile) (fn_body (funcs g)) s (mkL cur None) ;;
     match l_err (snd x) with
     | Some e => Ok (fst x, Some e)
     | None =>
         match deref (l_cur (snd x)) (fst x) with
         | None => Panic
         | Some r => if Nat.eqb (List.length (rt_returns r)) 0 && Nat.eqb level 0
                     then Ok (fst x, Some "return type not found")
                     else Ok (fst x, None)
         end
     end).
Proof. reflexivity. Qed.

Scheme documents_mut := Induction for documents Sort Prop
  with documents_all_mut := Induction for documents_all Sort Prop.

Section Sound.
  Context (funcs : funcref -> func) (strict : bool).

  Definition node_sound ctx f n es regs (last : bool) : Prop :=
    exists N, forall fuel, N <= fuel -> forall level s p r l,
    ps_file s = f -> nth_error (ps_heap s) p = Some r -> l_cur l = Some p ->
    exists l', inspect (visit (deeper fuel funcs [] level) [] ctx f) n s l = Ok (after es regs p s, l') /\
      l_cur l' = Some p /\ (l_err l' = None <-> last = false).

  Definition list_sound ctx f ns es regs (last : bool) : Prop :=
    exists N, forall fuel, N <= fuel -> forall level s p r l,
    ps_file s = f -> nth_error (ps_heap s) p = Some r -> l_cur l = Some p ->
    (ns = [] -> l_err l = None) ->
    exists l', walk (visit (deeper fuel funcs [] level) [] ctx f) ns s l = Ok (after es regs p s, l') /\
      l_cur l' = Some p /\ (l_err l' = None <-> last = false).

  (** A helper: the analysis of a body one level down. *)
  Lemma helper_sound ctx' f' g es regs last fuel level s p r :
    (forall s p r l,
     ps_file s = f' -> nth_error (ps_heap s) p = Some r -> l_cur l = Some p ->
     exists l', inspect (visit (deeper fuel funcs [] (S level)) [] ctx' f') (fn_body (funcs g)) s l
                = Ok (after es regs p s, l') /\
       l_cur l' = Some p /\ (l_err l' = None <-> last = false)) ->
    fn_ctx (funcs g) f' = Ok ctx' -> ctx' <> "" ->
    nth_error (ps_heap s) p = Some r ->
    exists e, parseFunction (S fuel) funcs [] g (Some p) f' (S level) s
              = Ok (after es regs p (set_file f' s), e) /\ (e = None <-> last = false).
  Proof.
    intros H Hctx Hne Hp. rewrite parseFunction_eq. cbn zeta. cbn [Nat.eqb bind].
    cbn [set_file ps_file]. rewrite Hctx. cbn [bind]. rewrite (proj2 (String.eqb_neq _ _) Hne).
    destruct (H (set_file f' s) p r (mkL (Some p) None)) as (l' & E & Hc & He); auto.
    change (mkPS f' (ps_heap s) (ps_comps s)) with (set_file f' s).
    rewrite E. cbn [bind fst snd]. rewrite Hc.
    destruct (l_err l') as [e|].
    - exists (Some e). split; auto.
    - unfold deref. rewrite (after_heap es regs p (set_file f' s) r) by auto. rewrite andb_false_r.
      exists None. split; auto.
  Qed.

  Lemma documents_sound ctx f n es regs last :
    documents funcs strict ctx f n es regs last -> node_sound ctx f n es regs last.
  Proof.
    revert ctx f n es regs last.
    apply (documents_mut funcs strict
             (fun ctx f n es regs last _ => node_sound ctx f n es regs last)
             (fun ctx f ns es regs last _ => list_sound ctx f ns es regs last));
      unfold node_sound, list_sound.
    - intros ctx f ch es regs last _ (N & IH). exists N. intros fuel Hf level s p r l Hs Hp Hl.
      rewrite inspect_eq. cbn [bind fst snd]. eapply IH; eauto.
    - intros ctx f c ch Hn _. exists 1. intros fuel Hfuel level s p r l Hs Hp Hl.
      destruct fuel as [|fuel]; [lia|].
      rewrite inspect_eq. cbn beta iota.
      assert (V : exists e, visit (deeper (S fuel) funcs [] level) [] ctx f c s l
                  = Ok (s, mkL (Some p) (Some e), false)).
      { unfold visit. cbn [customs]. rewrite Hl.
        destruct Hn as [[Hpass Hd]|[Hpass [e He]]].
        - apply passes_ArgIndex in Hpass. rewrite Hpass, Hs.
          destruct Hd as [Hd|(nf & Hland & [Hd|(g & Hd & Hctx)])]; rewrite Hd.
          + eauto.
          + eexists. destruct nf as [f'|]; simpl in *; subst; rewrite ?set_file_same; reflexivity.
          + unfold deeper. rewrite parseFunction_eq.
            assert (E : match nf with Some f0 => set_file f0 s | None => s end = s).
            { destruct nf as [f'|]; simpl in *; subst; rewrite ?set_file_same; reflexivity. }
            rewrite E. cbn zeta. cbn [Nat.eqb bind]. rewrite set_file_same, Hs, Hctx. cbn [bind].
            rewrite String.eqb_refl. cbn [bind fst snd]. eauto.
        - apply not_passes in Hpass. rewrite Hpass, Hs, He. eauto. }
      destruct V as [e V]. rewrite V. cbn [bind fst snd].
      exists (mkL (Some p) (Some e)). rewrite (after_nil p s r Hp).
      split; auto. split; auto. split; discriminate.
    - intros ctx f c ch name recv es regs last Hpass Hobj Hrecv _ (N & IH).
      exists N. intros fuel Hfuel level s p r l Hs Hp Hl.
      rewrite inspect_eq.
      assert (V : visit (deeper fuel funcs [] level) [] ctx f c s l = Ok (s, mkL (Some p) None, true)).
      { unfold visit. cbn [customs]. apply not_passes in Hpass. rewrite Hpass, Hs, Hobj, Hl.
        destruct recv as [rt|]; [|reflexivity].
        destruct (String.eqb rt ginContext) eqn:E; [|reflexivity].
        apply String.eqb_eq in E. exfalso. apply Hrecv. now subst. }
      rewrite V. cbn [bind fst snd]. eapply IH; eauto.
    - intros ctx f c ch name es1 regs1 es2 regs2 last Hpass Hobj G _ (N & IH).
      exists N. intros fuel Hfuel level s p r l Hs Hp Hl.
      rewrite inspect_eq. apply not_passes in Hpass.
      rewrite (gin_call_visit _ _ _ _ _ G _ ctx c p s r l); auto.
      cbn [bind fst snd]. rewrite after_app.
      apply (IH fuel Hfuel level _ p (recorded es1 r)); [rewrite after_file; auto|now apply after_heap|reflexivity|reflexivity].
    - intros ctx f c ch nf g ctx' es1 regs1 es2 regs2 last Hpass Hd Hctx Hne _ (N1 & IH1) _ (N2 & IH2).
      exists (S (max N1 N2)). intros fuel Hfuel level s p r l Hs Hp Hl.
      destruct fuel as [|fuel]; [lia|].
      rewrite inspect_eq. apply passes_ArgIndex in Hpass.
      unfold visit at 1. cbn [customs]. rewrite Hpass, Hs, Hd, Hl.
      set (s1 := match nf with Some f0 => set_file f0 s | None => s end).
      assert (Hs1 : ps_file s1 = landed nf f) by (destruct nf; simpl; auto).
      assert (Hp1 : nth_error (ps_heap s1) p = Some r) by (destruct nf; auto).
      destruct (helper_sound ctx' (landed nf f) g es1 regs1 false fuel level s1 p r) as (e & E & He); auto.
      { intros. eapply IH1; eauto. lia. }
      unfold deeper. rewrite Hs1, E. cbn [bind fst snd].
      destruct e as [e|]; [destruct He as [_ He]; discriminate (He eq_refl)|].
      cbn [bind fst snd].
      assert (Es : set_file f (after es1 regs1 p (set_file (landed nf f) s1)) = after es1 regs1 p s).
      { rewrite <- after_set_file, set_file_set_file. f_equal.
        destruct nf; subst s1; subst f; unfold set_file; simpl; now destruct s. }
      rewrite Es, after_app.
      apply (IH2 (S fuel) ltac:(lia) level _ p (recorded es1 r)); [rewrite after_file; auto|now apply after_heap|reflexivity|reflexivity].
    - intros ctx f c ch nf g ctx' es regs _ Hpass Hd Hland Hctx Hne _ (N1 & IH1).
      exists (S N1). intros fuel Hfuel level s p r l Hs Hp Hl.
      destruct fuel as [|fuel]; [lia|].
      rewrite inspect_eq. apply passes_ArgIndex in Hpass.
      unfold visit at 1. cbn [customs]. rewrite Hpass, Hs, Hd, Hl.
      assert (Es1 : match nf with Some f0 => set_file f0 s | None => s end = s).
      { destruct nf as [f'|]; simpl in *; subst; rewrite ?set_file_same; reflexivity. }
      rewrite Es1, Hs.
      destruct (helper_sound ctx' f g es regs true fuel level s p r) as (e & E & He); auto.
      { intros. eapply IH1; eauto. lia. }
      unfold deeper. rewrite E. cbn [bind fst snd].
      destruct e as [e|]; [|destruct He as [He _]; discriminate (He eq_refl)].
      cbn [bind fst snd].
      assert (Es : set_file f s = s) by (subst f; apply set_file_same). rewrite Es.
      exists (mkL (Some p) (Some e)). split; auto.
    - intros ctx f. exists 0. intros fuel _ level s p r l Hs Hp Hl Hn.
      exists l. simpl. rewrite (after_nil p s r Hp). repeat split; auto.
    - intros ctx f n es regs last _ (N & IH). exists N. intros fuel Hfuel level s p r l Hs Hp Hl _.
      destruct (IH fuel Hfuel level s p r l) as (l' & E & H); auto. rewrite walk_cons, E.
      cbn [bind fst snd]. exists l'. split; [reflexivity|exact H].
    - intros ctx f n n' ns es1 regs1 l1 es2 regs2 last _ (N1 & IH1) _ (N2 & IH2).
      exists (max N1 N2). intros fuel Hfuel level s p r l Hs Hp Hl _.
      destruct (IH1 fuel) with (level := level) (s := s) (p := p) (r := r) (l := l) as (l' & E & Hc & He); auto; [lia|].
      remember (n' :: ns) as tl eqn:Etl. rewrite walk_cons, E. cbn [bind fst snd]. rewrite after_app.
      apply (IH2 fuel ltac:(lia) level _ p (recorded es1 r)); [rewrite after_file; auto|now apply after_heap|auto|subst; discriminate].
  Qed.
End Sound.
