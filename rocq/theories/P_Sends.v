(** Proofs about what is sent and received, and about the components that come of it. *)
From Coq Require Import List String Ascii Bool ZArith Arith Lia.
From Verif Require Import BaseStr M_Types M_Paths M_Tags M_Collect S_Collect P_Collect M_TypeTrav S_TypeTrav P_TypeTrav M_Value S_Value P_Value
  M_Parse S_Parse P_Parse P_Parse2 P_Parse3 P_Comps M_Resolve S_Resolve P_Resolve S_Sends.
Import ListNotations.
Local Open Scope string_scope.

(** Induction over syntax trees, through their parts. *)
Fixpoint ex_ind' (P : ex -> Prop) (H : forall e, (forall p, In p (parts e) -> P p) -> P e) (e : ex) {struct e} : P e :=
  let all := fix go (l : list ex) : forall p, In p l -> P p :=
    match l with
    | [] => fun p i => match i with end
    | x :: r => fun p i => match i with or_introl E => eq_ind x P (ex_ind' P H x) p E | or_intror i => go r p i end
    end in
  let two := fun x (Hx : P x) l (Hl : forall p, In p l -> P p) p (i : In p (x :: l)) =>
    match i with or_introl E => eq_ind x P Hx p E | or_intror i => Hl p i end in
  let none := fun p (i : In p []) => match i return P p with end in
  H e match e return forall p, In p (parts e) -> P p with
      | EIdent _ _ _ | ELit _ _ _ => none
      | ESel x id name => two x (ex_ind' P H x) _ (two (EIdent id name None) (H (EIdent id name None) none) [] none)
      | EStar x | EUnary _ x | EParen x => two x (ex_ind' P H x) [] none
      | EIndex x y | EBinary _ x y => two x (ex_ind' P H x) _ (two y (ex_ind' P H y) [] none)
      | EArrayType _ l | EMapType _ l | EOther l | EComposite None l => all l
      | EComposite (Some t) l => two t (ex_ind' P H t) l (all l)
      | ECall fn args => two fn (ex_ind' P H fn) args (all args)
      end.

Section Sent.
  Context (co : code).
  Notation env := (co_types co).

  (** ** Receivers *)
  Lemma context_found t : go_names co -> type_string co t = the_context -> gin_context co t.
  Proof.
    intros N E. destruct t as [| id|e| | | | | |]; try discriminate E.
    - exfalso. cbn in E. destruct (N id) as [N1 N2]. destruct (te_pkg env id) as [p|].
      + specialize (N2 p eq_refl). destruct p as [|x p]; [discriminate|]. cbn in E. injection E as -> _. discriminate.
      + rewrite E in N1. discriminate N1.
    - destruct e as [|id|e| | | | | |]; try discriminate E. exists id. split; auto. cbn in E. injection E as E.
      destruct (N id) as [N1 N2]. destruct (te_pkg env id) as [p|]; [|cbn in E; rewrite E in N1; discriminate N1].
      destruct (last_split "." p (te_name env id) "github.com/gin-gonic/gin" "Context" N1 eq_refl E) as [-> ->]. auto.
  Qed.

  (** ** Types found *)
  Definition nameless (T : gtype) : Prop := forall id, ~ reach env true T (GNamed id).
  Lemma nameless_basic b k : nameless (GBasic b k).
  Proof. intros id H. inversion H; subst. match goal with P : part _ _ _ _ |- _ => inversion P end. Qed.
  Lemma nameless_other : nameless GOther.
  Proof. intros id H. inversion H; subst. match goal with P : part _ _ _ _ |- _ => inversion P end. Qed.
  Lemma within_trans a b c : within a b -> within b c -> within a c.
  Proof. intros H K. induction K as [|p e I K IH]; auto. econstructor; eauto. Qed.

  Lemma object_type o : (has_type o (obj_type o)) \/ nameless (obj_type o).
  Proof. destruct o; cbn; auto using nameless_basic, nameless_other. Qed.

  Lemma type_found f e : forall T, ExprType co f e = Ok T -> (exists x, within x e /\ type_at co f x T) \/ nameless T.
  Proof.
    induction e as [e IH] using ex_ind'. intros T E.
    assert (Sub : forall p T, In p (parts e) -> ExprType co f p = Ok T -> (exists x, within x e /\ type_at co f x T) \/ nameless T).
    { intros p T' I E'. destruct (IH p I T' E') as [(x & W & A)|N]; auto. left. exists x. split; auto. econstructor; eauto. }
    assert (Obj : forall id, (exists name obj, e = EIdent id name obj) \/ (exists x name, e = ESel x id name) ->
       forall o, FindObjectForIdent co (pkg_of co f) id = Some o -> exists n, denotes co f e n /\ co_obj co n = o).
    { intros id He o Ho. unfold FindObjectForIdent in Ho. destruct (pi_objectOf _ id) as [n|] eqn:En; [|discriminate]. injection Ho as <-.
      exists n. split; auto. destruct He as [(name & obj & ->)|(x & name & ->)]; constructor; exact En. }
    assert (Ret : forall fn, In fn (parts e) -> ReturnType co f fn 0 = Ok T -> (exists x, within x e /\ type_at co f x T) \/ nameless T).
    { intros fn I R. unfold ReturnType in R. destruct (CallType co f fn) as [((nm & rc) & rs)| | |] eqn:C; try discriminate. cbn [bind snd] in R.
      destruct rs as [|r rs]; [discriminate|]. cbn in R. injection R as <-. left. exists fn. split; [econstructor; [exact I|constructor]|].
      unfold CallType in C. destruct fn as [id name obj|x id name| | | | | | | | | | |]; try discriminate;
        unfold FindObjectForIdent in C; destruct (pi_objectOf (co_pkg co (pkg_of co f)) id) as [n|] eqn:En; try discriminate; cbn [option_map] in C;
        destruct (co_obj co n) as [nm' rc' rs'| | | | |] eqn:Eo; try discriminate; injection C as -> -> ->;
        apply (ta_name co f _ n); try (constructor; exact En); rewrite Eo; cbn; auto. }
    destruct e as [id name obj|x id name|id s text|fn args|x|op x|id inner|id inner|[t|] elts|x|x y|b x y|ch]; cbn [ExprType] in E; try discriminate.
    - unfold FindObjectForIdentFuzzy in E. destruct (FindObjectForIdent co (pkg_of co f) id) as [o|] eqn:Eo.
      + injection E as <-. destruct (Obj id ltac:(eauto) o Eo) as (n & D & <-).
        destruct (object_type (co_obj co n)) as [H|H]; auto. left. eexists. split; [constructor|]. econstructor; eauto.
      + destruct (find _ _) as [(nm & [o|])|] eqn:Ef; try discriminate. injection E as <-.
        destruct (object_type (co_obj co o)) as [H|H]; auto. left. eexists. split; [constructor|].
        apply find_some in Ef as [F1 F2]. apply String.eqb_eq in F2. cbn in F2. subst nm. eapply ta_declared; eauto.
        intros o' Ho'. rewrite (object_found _ _ _ _ Ho') in Eo. discriminate.
    - destruct (FindObjectForIdent co (pkg_of co f) id) as [o|] eqn:Eo; [|discriminate].
      injection E as <-. destruct (Obj id ltac:(eauto) o Eo) as (n & D & <-).
      destruct (object_type (co_obj co n)) as [H|H]; auto. left. eexists. split; [constructor|]. econstructor; eauto.
    - unfold FindTypeForExpr in E. destruct (pi_typeOf _ id) as [t|] eqn:Et; [|discriminate]. injection E as <-.
      left. eexists. split; [constructor|]. eapply ta_node; eauto 6.
    - destruct fn as [id name obj|x id name| | | | | | | | | | |]; try (refine (Ret _ _ E); cbn; tauto).
      destruct (str_in name ["new"; "make"]).
      + destruct args as [|a args]; [discriminate|]. apply (Sub a); cbn; auto.
      + destruct (String.eqb name "len"); [injection E as <-; right; apply nameless_basic|].
        refine (Ret _ _ E). cbn; tauto.
    - apply (Sub x); cbn; auto.
    - apply (Sub x); cbn; auto.
    - unfold FindTypeForExpr in E. destruct (pi_typeOf _ id) as [t|] eqn:Et; [|discriminate]. injection E as <-.
      left. eexists. split; [constructor|]. eapply ta_node; eauto 6.
    - unfold FindTypeForExpr in E. destruct (pi_typeOf _ id) as [t|] eqn:Et; [|discriminate]. injection E as <-.
      left. eexists. split; [constructor|]. eapply ta_node; eauto 6.
    - apply (Sub t); cbn; auto.
  Qed.

  (** ** Trees *)
  Lemma occurs_within n c e : occurs c (tree co n e) -> exists fn args, c = call_of co n fn args /\ within (ECall fn args) e.
  Proof.
    induction e as [e IH] using ex_ind'. intros H.
    assert (D : is_call e \/ ~ is_call e).
    { destruct e; try (right; intros (? & ? & X); discriminate). left. unfold is_call. eauto. }
    assert (Sub : forall ps, (forall p, In p ps -> In p (parts e)) -> forall m, In m (map (tree co n) ps) -> occurs c m ->
              exists fn args, c = call_of co n fn args /\ within (ECall fn args) e).
    { intros ps I m Hm Ho. apply in_map_iff in Hm as (p & <- & Hp). destruct (IH p (I p Hp) Ho) as (fn & args & -> & W).
      exists fn, args. split; auto. econstructor; eauto. }
    destruct D as [(fn & args & ->)|D].
    - cbn [tree] in H. inversion H as [ch|x m ch Hm Ho]; subst.
      + exists fn, args. split; [reflexivity|constructor].
      + apply (Sub (fn :: args)) with (m := m); auto.
    - rewrite (tree_parts co n e D) in H. inversion H as [ch|x m ch Hm Ho]; subst. apply (Sub (parts e)) with (m := m); auto.
  Qed.

  (** Everything registered is the definition of a documented type. *)
  Definition registered_type (x : Result) : Prop := exists id, documented co id /\ definition_of env id x.
  Lemma source_fine n g : go_names co -> fine_tree registered_type (fn_body (func_of co n g)).
  Proof.
    intros N c O f name a x Ho Ha Hx. cbn [fn_body func_of] in O. apply occurs_within in O as (fn & args & -> & W).
    cbn [c_args call_of c_obj] in *. apply in_map_iff in Ha as (e & <- & He). cbn [a_result arg_of] in Hx.
    unfold ExprResult in Hx. destruct (ExprType co f e) as [T| | |] eqn:ET; try now destruct Hx.
    destruct (registered_only _ _ _ _ _ _ Hx) as (id & R & Df). exists id. split; auto. exists T. split; auto.
    destruct (type_found f e T ET) as [(y & Wy & A)|NL]; [|now elim (NL id)].
    unfold CallObject in Ho. destruct (CallType co f fn) as [((nm & rc) & rs)| | |] eqn:C; try discriminate.
    injection Ho as <- Hr. destruct rc as [t|]; [|discriminate]. injection Hr as Hr. apply context_found in Hr; auto.
    unfold CallType in C.
    assert (X : exists o, denotes co f fn o /\ co_obj co o = TFunc nm (Some t) rs).
    { destruct fn as [i m obj|x0 i m| | | | | | | | | | |]; try discriminate;
        unfold FindObjectForIdent in C; destruct (pi_objectOf (co_pkg co (pkg_of co f)) i) as [o|] eqn:En; try discriminate; cbn [option_map] in C;
        destruct (co_obj co o) as [nm' rc' rs'| | | | |] eqn:Eo; try discriminate; injection C as -> -> ->;
        exists o; (split; [constructor; exact En|exact Eo]). }
    destruct X as (o & D & Eo). exists g, f, fn, args, o, nm, t, rs, e, y. auto 10.
  Qed.
End Sent.

(** ** Calls and what the source says *)
Section Said.
  Context (co : code) (home : nat -> option (file * string * funcref)).

  Lemma said_each ctx f l es regs last : says_all co home ctx f l es regs last -> forall p, In p l ->
    exists es' regs' last', says co home ctx f p es' regs' last' /\ incl es' es /\ incl regs' regs.
  Proof.
    intros S p I. induction S as [ctx f|ctx f e es regs last S|ctx f e es1 regs1 l1 e' l es2 regs2 last S1 S2 IH].
    - destruct I.
    - destruct I as [<-|[]]. eauto 7 using incl_refl.
    - destruct I as [<-|I].
      + exists es1, regs1, l1. split; auto using incl_appl, incl_refl.
      + destruct (IH I) as (es' & regs' & last' & S' & I1 & I2). exists es', regs', last'. auto using incl_appr.
  Qed.
  Lemma said_parts ctx f e es regs last : says co home ctx f e es regs last -> forall p, In p (parts e) ->
    exists es' regs' last', says co home ctx f p es' regs' last' /\ incl es' es /\ incl regs' regs.
  Proof.
    intros S p I. inversion S; subst; cbn [parts] in I;
      match goal with A : says_all _ _ _ _ _ _ _ _ |- _ => destruct (said_each _ _ _ _ _ _ A p I) as (es' & regs' & last' & S' & I1 & I2) end;
      exists es', regs', last'; auto using incl_appr.
  Qed.
  Lemma denotes_one f e o o' : denotes co f e o -> denotes co f e o' -> o = o'.
  Proof. intros H K. inversion H; subst; inversion K; subst; unfold object_at in *; congruence. Qed.
  Lemma function_named f e o name recv results : denotes co f e o -> co_obj co o = TFunc name recv results -> ~ no_function co f e.
  Proof.
    intros D Eo N. inversion N as [e' o' D' No|e' N1 N2]; subst.
    - rewrite (denotes_one _ _ _ _ D' D) in No. exact (No _ _ _ Eo).
    - inversion D; subst; [eapply N1|eapply N2]; reflexivity.
  Qed.

  Lemma calls_said ctx f e name args f0 : scopes_agree co home -> calls co home ctx f e name args f0 ->
    forall es regs last, says co home ctx f e es regs last ->
    exists es' regs', context_call co f0 name args es' regs' /\ incl es' es /\ incl regs' regs.
  Proof.
    intros Ag C. induction C as [ctx f fn args o name recv results M D Eo Gc|ctx f p e name args f0 I C IH
                                |ctx f fn args f' g ctx' name args' f0 M Cf L Fc C IH]; intros es regs last S.
    - inversion S; subst.
      + exfalso. match goal with N : ~ is_call _ |- _ => apply N; unfold is_call; eauto end.
      + exfalso. eapply function_named; eauto.
      + exfalso. match goal with D' : denotes _ _ _ ?o', E' : co_obj _ ?o' = TFunc _ ?r _, R : forall t, ?r = Some t -> _ |- _ =>
          assert (o' = o) by (eapply denotes_one; eauto); subst o'; rewrite Eo in E'; injection E' as <- <- <-;
          destruct (R recv eq_refl) as [_ X]; auto end.
      + match goal with D' : denotes _ _ _ ?o', E' : co_obj _ ?o' = TFunc _ _ _, X : context_call _ _ _ _ ?e1 ?r1 |- _ =>
          assert (o' = o) by (eapply denotes_one; eauto); subst o'; rewrite Eo in E'; injection E' as <- <- <-; exists e1, r1 end.
        auto using incl_appl, incl_refl.
      + exfalso. auto.
    - destruct (said_parts _ _ _ _ _ _ S p I) as (es' & regs' & last' & S' & I1 & I2).
      destruct (IH _ _ _ S') as (es2 & regs2 & X & J1 & J2). exists es2, regs2. split; auto. split; eapply incl_tran; eauto.
    - inversion S as [? ? ? ? ? ? N|? ? ? ? ? N|? ? ? ? ? ? ? ? ? ? ? N|? ? ? ? ? ? ? ? ? ? ? ? ? N
                     |? ? ? ? f2 g2 ctx2 es1 regs1 es2 regs2 ? M' Cf' L' Fc' Ne Sn S1 S2]; subst; try (exfalso; auto; fail).
      + exfalso. apply N. unfold is_call. eauto.
      + destruct (followed co home _ _ _ _ Ag Cf L) as (nf & E1 & L1). destruct (followed co home _ _ _ _ Ag Cf' L') as (nf' & E2 & L2).
        rewrite E1 in E2. injection E2 as En Eg. assert (EF : f2 = f') by congruence. clear L1 L2 E1. rewrite EF, <- Eg in *.
        assert (ctx2 = ctx').
        { assert (X1 := context_named co _ _ _ Fc Sn). assert (X2 := context_named co _ _ _ Fc' Sn). congruence. }
        subst ctx2. destruct (IH _ _ _ S1) as (es' & regs' & X & J1 & J2). exists es', regs'. auto using incl_appl.
  Qed.

  (** Everything said is said by a call. *)
  Lemma said_called : forall ctx f e es regs last, says co home ctx f e es regs last -> forall ev, In ev es ->
    exists name args f0 es' regs', calls co home ctx f e name args f0 /\ context_call co f0 name args es' regs' /\ In ev es' /\ incl regs' regs.
  Proof.
    apply (says_mind co home
      (fun ctx f e es regs last _ => forall ev, In ev es ->
         exists name args f0 es' regs', calls co home ctx f e name args f0 /\ context_call co f0 name args es' regs' /\ In ev es' /\ incl regs' regs)
      (fun ctx f l es regs last _ => forall ev, In ev es ->
         exists p name args f0 es' regs', In p l /\ calls co home ctx f p name args f0 /\ context_call co f0 name args es' regs' /\ In ev es' /\ incl regs' regs)).
    - intros ctx f e es regs last _ _ IH ev H. destruct (IH ev H) as (p & name & args & f0 & es' & regs' & I & C & X & Y & Z).
      exists name, args, f0, es', regs'. split; [eapply ca_part; eauto|auto using incl_appl, incl_appr].
    - intros ctx f fn args last _ _ _ _ ev [].
    - intros ctx f fn args o name recv results es regs last _ _ _ _ _ IH ev H.
      destruct (IH ev H) as (p & nm & ar & f0 & es' & regs' & I & C & X & Y & Z). exists nm, ar, f0, es', regs'. split; [eapply ca_part; eauto|auto using incl_appl, incl_appr].
    - intros ctx f fn args o name recv results es1 regs1 es2 regs2 last M D Eo Gc Cc _ IH ev H. apply in_app_iff in H as [H|H].
      + exists name, args, f, es1, regs1. split; [econstructor; eauto|auto using incl_appl, incl_refl].
      + destruct (IH ev H) as (p & nm & ar & f0 & es' & regs' & I & C & X & Y & Z). exists nm, ar, f0, es', regs'. split; [eapply ca_part; eauto|auto using incl_appl, incl_appr].
    - intros ctx f fn args f' g ctx' es1 regs1 es2 regs2 last M Cf L Fc Ne Sn _ IH1 _ IH2 ev H. apply in_app_iff in H as [H|H].
      + destruct (IH1 ev H) as (nm & ar & f0 & es' & regs' & C & X & Y & Z). exists nm, ar, f0, es', regs'. split; [eapply ca_helper; eauto|auto using incl_appl, incl_appr].
      + destruct (IH2 ev H) as (p & nm & ar & f0 & es' & regs' & I & C & X & Y & Z). exists nm, ar, f0, es', regs'. split; [eapply ca_part; eauto|auto using incl_appl, incl_appr].
    - intros ctx f ev [].
    - intros ctx f e es regs last _ IH ev H. destruct (IH ev H) as (nm & ar & f0 & es' & regs' & C & X & Y & Z).
      exists e, nm, ar, f0, es', regs'. split; [now left|auto using incl_appl, incl_appr].
    - intros ctx f e es1 regs1 l1 e' l es2 regs2 last _ IH1 _ IH2 ev H. apply in_app_iff in H as [H|H].
      + destruct (IH1 ev H) as (nm & ar & f0 & es' & regs' & C & X & Y & Z). exists e, nm, ar, f0, es', regs'. split; [now left|auto using incl_appl, incl_appr].
      + destruct (IH2 ev H) as (p & nm & ar & f0 & es' & regs' & I & C & X & Y & Z). exists p, nm, ar, f0, es', regs'. split; [now right|auto using incl_appl, incl_appr].
  Qed.

  (** ** One method, one meaning *)
  Lemma renderer_content name c c' : In (name, c) renderers -> In (name, c') renderers -> c = c'.
  Proof.
    intros H K. cbn in H, K. repeat (destruct H as [H|H]; [injection H as <- <-; repeat (destruct K as [K|K]; [injection K as K1; subst; try discriminate; auto|]); destruct K|]). destruct H.
  Qed.
  Lemma renderer_not_answer name c x : In (name, c) renderers -> ~ In (name, x) answers.
  Proof.
    intros H K. cbn in H, K. repeat (destruct H as [H|H]; [injection H as <- <-; repeat (destruct K as [K|K]; [discriminate K|]); destruct K|]). destruct H.
  Qed.
  Lemma renderer_not_reader name c x : In (name, c) renderers -> ~ In (name, x) readers.
  Proof.
    intros H K. apply (in_map fst) in K. apply (in_map fst) in H. cbn in H, K. intuition (subst; discriminate).
  Qed.
  Lemma renderer_not_binder name c x : In (name, c) renderers -> ~ In (name, x) binders.
  Proof.
    intros H K. apply (in_map fst) in K. apply (in_map fst) in H. cbn in H, K. intuition (subst; discriminate).
  Qed.
  Lemma renderer_documented name c : In (name, c) renderers -> In name documented_methods.
  Proof. intros H. apply (in_map fst) in H. unfold documented_methods. apply in_app_iff. auto. Qed.

  Lemma status_one f e z z' : status co f e z -> status co f e z' -> z = z'.
  Proof.
    intros H K. destruct (status_value co _ _ _ H) as (v & P & F). destruct (status_value co _ _ _ K) as (v' & P' & F').
    specialize (F 1 (le_n _)). specialize (F' 1 (le_n _)). congruence.
  Qed.

  (** What a renderer documents. *)
  Lemma render_event f name content a b rest es regs z : In (name, content) renderers -> status co f a z ->
    context_call co f name (a :: b :: rest) es regs ->
    exists x, es = [EReturn (mkRet z content x)] /\ value_of co f b regs x.
  Proof.
    intros R S C. inversion C as [n c a' b' r z' x rg Hin Hs Hv|n typ c a' r z' Hin Hs|n ev a' r s Hin Hs|n ev a' r x rg Hin Hv|n ar Hno]; subst.
    - rewrite (renderer_content _ _ _ Hin R), (status_one _ _ _ _ Hs S). eauto.
    - exfalso. eapply renderer_not_answer; eauto.
    - exfalso. eapply renderer_not_reader; eauto.
    - exfalso. eapply renderer_not_binder; eauto.
    - exfalso. apply Hno. eapply renderer_documented; eauto.
  Qed.

  (** What a decoder documents. *)
  Lemma decoder_event f name content a rest es regs : In (name, content) decoders -> context_call co f name (a :: rest) es regs ->
    exists x, In (EBody (body_to content x)) es /\ value_of co f a regs x.
  Proof.
    intros R C. inversion C as [n c a' b' r z' x rg Hin Hs Hv|n typ c a' r z' Hin Hs|n ev a' r s Hin Hs|n ev a' r x rg Hin Hv|n ar Hno]; subst.
    - exfalso. apply (in_map fst) in R, Hin. cbn in R, Hin. intuition (subst; discriminate).
    - exfalso. apply (in_map fst) in R, Hin. cbn in R, Hin. intuition (subst; discriminate).
    - exfalso. apply (in_map fst) in R, Hin. cbn in R, Hin. intuition (subst; discriminate).
    - exists x. split; auto. clear C Hv. cbn in R, Hin.
      repeat (destruct R as [R|R]; [injection R as <- <-;
        repeat (destruct Hin as [Hin|Hin]; [first [discriminate Hin|injection Hin as <-; cbn; tauto]|]); destruct Hin|]). destruct R.
    - exfalso. apply Hno. unfold documented_methods. rewrite !in_app_iff. apply (in_map fst) in R. cbn in R |- *. intuition (subst; tauto).
  Qed.

  (** Responses come from renderers, bodies other than forms from decoders. *)
  Lemma return_call f name args es regs rt : context_call co f name args es regs -> In (EReturn rt) es -> In (r_contentType rt) (map snd renderers) ->
    exists a b rest, args = a :: b :: rest /\ In (name, r_contentType rt) renderers /\ status co f a (r_status rt) /\ value_of co f b regs (r_field rt).
  Proof.
    intros C I R. destruct C as [n c a' b' r z' x rg Hin Hs Hv|n typ c a' r z' Hin Hs|n ev a' r s Hin Hs|n ev a' r x rg Hin Hv|n ar Hno].
    - destruct I as [I|[]]. injection I as <-. exists a', b', r. auto.
    - exfalso. destruct I as [I|[]]. injection I as <-. cbn in Hin, R. intuition (match goal with H : (_, _) = (_, _) |- _ => injection H as <- <- <- end; discriminate).
    - exfalso. destruct I as [I|[]]. cbn in Hin. repeat (destruct Hin as [Hin|Hin]; [injection Hin as <- <-; discriminate I|]). destruct Hin.
    - exfalso. cbn in Hin. repeat (destruct Hin as [Hin|Hin]; [injection Hin as <- <-; cbn in I; repeat (destruct I as [I|I]; [discriminate I|]); destruct I|]). destruct Hin.
    - destruct I.
  Qed.
  Lemma body_call f name args es regs b : context_call co f name args es regs -> In (EBody b) es -> In (b_contentType b) (map snd decoders) ->
    exists a rest, args = a :: rest /\ In (name, b_contentType b) decoders /\ value_of co f a regs (b_field b) /\ b_name b = "".
  Proof.
    intros C I R. destruct C as [n c a' b' r z' x rg Hin Hs Hv|n typ c a' r z' Hin Hs|n ev a' r s Hin Hs|n ev a' r x rg Hin Hv|n ar Hno].
    - destruct I as [I|[]]. discriminate.
    - destruct I as [I|[]]. discriminate.
    - exfalso. destruct I as [I|[]]. cbn in Hin.
      repeat (destruct Hin as [Hin|Hin]; [injection Hin as <- <-; first [discriminate I|injection I as <-; cbn in R; repeat (destruct R as [R|R]; [discriminate R|]); destruct R]|]). destruct Hin.
    - exists a', r. split; [reflexivity|]. assert (X : In (n, b_contentType b) decoders /\ b_field b = x /\ b_name b = ""); [|destruct X as (X & -> & Y); auto].
      cbn in Hin. repeat (destruct Hin as [Hin|Hin]; [injection Hin as <- <-; cbn in I;
        repeat (destruct I as [I|I]; [first [discriminate I|injection I as <-; first [split; [cbn; tauto|split; reflexivity]|exfalso; cbn in R; repeat (destruct R as [R|R]; [discriminate R|]); destruct R]]|]); destruct I|]).
      destruct Hin.
    - destruct I.
  Qed.
End Said.
