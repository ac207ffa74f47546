(** Proofs about the resolution of names, types and contexts. *)
From Coq Require Import List String Ascii Bool ZArith Arith Lia.
From Verif Require Import BaseStr M_Types M_Paths M_Tags M_Collect M_TypeTrav S_TypeTrav P_TypeTrav M_Value S_Value P_Value M_Parse S_Parse
  M_Resolve S_Resolve.
Import ListNotations.
Local Open Scope string_scope.

Section P.
  Context (co : code).

  (** ** Imports *)
  Lemma import_matches_iff x im : import_matches co x im = true <->
    fst im = x \/ after_last "/" (path_of co (snd im)) = x.
  Proof. unfold import_matches. now rewrite orb_true_iff, !String.eqb_eq. Qed.

  Lemma find_import_plain f x p : plain_import co f x p -> FindImport co f x = Some p.
  Proof.
    intros [(im & Hin & Hs & Hm) Honly]. unfold FindImport.
    destruct (find (import_matches co x) (fi_imports (co_file co f))) as [im'|] eqn:E.
    - apply find_some in E as [H1 H2]. cbn. f_equal. apply Honly; auto. now apply import_matches_iff.
    - exfalso. pose proof (find_none _ _ E _ Hin) as N.
      assert (T : import_matches co x im = true) by (apply import_matches_iff; now rewrite Hs). congruence.
  Qed.

  (** ** Functions by name *)
  Lemma followed home f e f' g : scopes_agree co home -> calls_function co home f e f' g ->
    loads co (pkg_of co f') = true ->
    exists nf, FindDeclarationForNode co f e = DFound nf (Some g) /\ landed nf f = f'.
  Proof.
    intros Ag C L. assert (IP : forall o name, home o = Some (f', name, g) -> top_level co o ->
                     in_package co (pkg_of co f') name = DFound (Some f') (Some g)).
    { intros o name Ho Ht. destruct (Ag o f' name g Ho Ht) as (S1 & S2 & _).
      unfold in_package. rewrite L. unfold FindASTForType. now rewrite S1, S2. }
    inversion C as [id name obj o f0 name' g0 Ho Ht Hh Ha|idx x objx ox p id name o f0 g0 Hx Hp Hi Ho Ht Hh Hhome]; subst; cbn.
    - destruct (Ha _ _ _ Hh) as [<- [[-> ->] | [-> Hpk]]].
      + exists None. split; reflexivity.
      + rewrite <- Hpk. exists (Some f'). split; [|reflexivity]. eauto.
    - rewrite (find_import_plain _ _ _ Hi). exists (Some f'). split; [|reflexivity].
      destruct (Ag o f' name g Hh Ht) as (_ & _ & E). rewrite E. eauto.
  Qed.

  (** ** Types *)
  Lemma object_found f id o : object_at co f id o -> FindObjectForIdent co (pkg_of co f) id = Some (co_obj co o).
  Proof. intros H. unfold FindObjectForIdent. unfold object_at in H. now rewrite H. Qed.
  Lemma object_found_fuzzy f id name o : object_at co f id o ->
    FindObjectForIdentFuzzy co (pkg_of co f) id name = Some (co_obj co o).
  Proof. intros H. unfold FindObjectForIdentFuzzy. now rewrite (object_found _ _ _ H). Qed.
  Lemma name_type f e o : denotes co f e o -> ExprType co f e = Ok (obj_type (co_obj co o)).
  Proof.
    intros H. inversion H; subst; cbn [ExprType].
    - now rewrite (object_found_fuzzy _ _ _ _ H0).
    - now rewrite (object_found _ _ _ H0).
  Qed.
  Lemma type_expression f e t : denotes_type co f e t -> exists t', ExprType co f e = Ok t' /\ behind t' = behind t.
  Proof.
    intros H. induction H as [e o t Hd Ho|id inner t Ht|id inner t Ht|x t H (t' & E & B)].
    - exists t. rewrite (name_type _ _ _ Hd), Ho. split; reflexivity.
    - exists t. cbn. unfold FindTypeForExpr. rewrite Ht. split; reflexivity.
    - exists t. cbn. unfold FindTypeForExpr. rewrite Ht. split; reflexivity.
    - exists t'. cbn. split; [exact E|exact B].
  Qed.
  Lemma call_type_of f fn o name recv results : denotes co f fn o -> co_obj co o = TFunc name recv results ->
    CallType co f fn = Ok (name, recv, results).
  Proof. intros H Ho. inversion H; subst; cbn; rewrite (object_found _ _ _ H0), Ho; reflexivity. Qed.

  Lemma within_part f p e : In p (parts e) -> builtins_kept co f e -> builtins_kept co f p.
  Proof. intros H K id name obj W. apply K. eapply wi_part; eauto. Qed.
  Lemma not_builtins name : ~ In name ["new"; "make"; "len"] ->
    str_in name ["new"; "make"] = false /\ String.eqb name "len" = false.
  Proof.
    intros H. split.
    - destruct (str_in name ["new"; "make"]) eqn:E; [|reflexivity]. exfalso. apply H. unfold str_in in E. cbn in E.
      rewrite orb_false_r, orb_true_iff in E. destruct E as [E|E]; apply String.eqb_eq in E; subst; cbn; auto.
    - apply String.eqb_neq. intros ->. apply H. cbn. auto.
  Qed.

  (** A callee that is no builtin is not taken for one. *)
  Lemma call_plain f fn args o : builtins_kept co f fn -> denotes co f fn o -> (forall n, co_obj co o <> TBuiltin n) ->
    ExprType co f (ECall fn args) = ReturnType co f fn 0.
  Proof.
    intros K Hd Ho. cbn [ExprType]. inversion Hd as [id n obj o' Hid|x id n o' Hid]; subst; [|reflexivity].
    assert (N : ~ In n ["new"; "make"; "len"]).
    { intros Hin. destruct (K id n obj (wi_here _) Hin) as (id' & obj' & o' & E & Ho' & Hb). injection E as <- <-.
      unfold object_at in *. assert (o = o') by congruence. subst. exact (Ho _ Hb). }
    destruct (not_builtins n N) as [-> ->]. reflexivity.
  Qed.
  Lemma call_type f fn args o name recv t :
    builtins_kept co f fn -> denotes co f fn o -> co_obj co o = TFunc name recv [t] ->
    ExprType co f (ECall fn args) = Ok t.
  Proof.
    intros K Hd Ho. rewrite (call_plain _ _ _ _ K Hd); [|congruence].
    unfold ReturnType. now rewrite (call_type_of _ _ _ _ _ _ Hd Ho).
  Qed.

  (** The type found is the static type behind pointers. *)
  Lemma static_type f e t : builtins_kept co f e -> no_named_pointers co -> simple co f e -> typed co f e t ->
    exists t', ExprType co f e = Ok t' /\ behind t' = behind t.
  Proof.
    intros K P S T. revert K S.
    induction T as [e o t Hd Ho|e o v t Hd Ho|id s text t Ht|x t T IH|x id t T IH Hu|x t T IH|x t T IH|ty elts t Hd
                   |fn args o name recv t Hd Ho|fn a t Hb Hd|fn a rest t Hb Hd|fn a Hb|fn x t Hd|x t T IH
                   |x i t T IH|x i k t T IH|x y|x y t T IH]; intros K S.
    - exists t. rewrite (name_type _ _ _ Hd), Ho. split; reflexivity.
    - exists t. rewrite (name_type _ _ _ Hd), Ho. split; reflexivity.
    - exists t. cbn. unfold FindTypeForExpr. rewrite Ht. split; reflexivity.
    - inversion S; subst. destruct IH as (t' & E & B); auto. { apply (within_part f x (EStar x)); cbn; auto. }
      exists t'. split; [exact E|]. now rewrite B.
    - exfalso. exact (P _ _ Hu).
    - inversion S; subst. destruct IH as (t' & E & B); auto. { apply (within_part f x (EUnary UAddr x)); cbn; auto. }
      exists t'. split; [exact E|]. now rewrite B.
    - inversion S; subst. destruct IH as (t' & E & B); auto. { apply (within_part f x (EUnary UArith x)); cbn; auto. }
      exists t'. split; [exact E|exact B].
    - cbn [ExprType]. now apply type_expression.
    - exists t. split; [|reflexivity]. eapply call_type; eauto. apply (within_part f fn (ECall fn args)); cbn; auto.
    - destruct Hb as (id & obj & o & -> & _ & _). cbn [ExprType].
      change (str_in "new" ["new"; "make"]) with true. cbn iota. destruct (type_expression _ _ _ Hd) as (t' & E & B). eauto.
    - destruct Hb as (id & obj & o & -> & _ & _). cbn [ExprType].
      change (str_in "make" ["new"; "make"]) with true. cbn iota. destruct (type_expression _ _ _ Hd) as (t' & E & B). eauto.
    - destruct Hb as (id & obj & o & -> & _ & _). exists (GBasic "int" KInt). split; reflexivity.
    - inversion S as [| | | | | |fn' args' Hno]; subst. exfalso. exact (Hno _ Hd).
    - inversion S.
    - inversion S.
    - inversion S.
    - inversion S.
    - inversion S.
  Qed.

  (** And it is never another one, whatever the expression. *)
  Lemma static_type_sound f e t t' : builtins_kept co f e -> no_named_pointers co -> typed co f e t ->
    ExprType co f e = Ok t' -> behind t' = behind t.
  Proof.
    intros K P T. revert K t'.
    induction T as [e o t Hd Ho|e o v t Hd Ho|id s text t Ht|x t T IH|x id t T IH Hu|x t T IH|x t T IH|ty elts t Hd
                   |fn args o name recv t Hd Ho|fn a t Hb Hd|fn a rest t Hb Hd|fn a Hb|fn x t Hd|x t T IH
                   |x i t T IH|x i k t T IH|x y|x y t T IH]; intros K t' E.
    - rewrite (name_type _ _ _ Hd), Ho in E. now injection E as <-.
    - rewrite (name_type _ _ _ Hd), Ho in E. now injection E as <-.
    - cbn in E. unfold FindTypeForExpr in E. rewrite Ht in E. now injection E as <-.
    - cbn in E. refine (IH _ _ E). apply (within_part f x (EStar x)); cbn; auto.
    - exfalso. exact (P _ _ Hu).
    - cbn in E. refine (IH _ _ E). apply (within_part f x (EUnary UAddr x)); cbn; auto.
    - cbn in E. refine (IH _ _ E). apply (within_part f x (EUnary UArith x)); cbn; auto.
    - cbn [ExprType] in E. destruct (type_expression _ _ _ Hd) as (t2 & E2 & B). congruence.
    - assert (K' : builtins_kept co f fn) by (apply (within_part f fn (ECall fn args)); cbn; auto).
      rewrite (call_type _ _ args _ _ _ _ K' Hd Ho) in E. now injection E as <-.
    - destruct Hb as (id & obj & o & -> & _ & _). cbn [ExprType] in E.
      change (str_in "new" ["new"; "make"]) with true in E. cbn iota in E.
      destruct (type_expression _ _ _ Hd) as (t2 & E2 & B). cbn [behind]. congruence.
    - destruct Hb as (id & obj & o & -> & _ & _). cbn [ExprType] in E.
      change (str_in "make" ["new"; "make"]) with true in E. cbn iota in E.
      destruct (type_expression _ _ _ Hd) as (t2 & E2 & B). congruence.
    - destruct Hb as (id & obj & o & -> & _ & _). cbn in E. now injection E as <-.
    - exfalso. assert (K' : builtins_kept co f fn) by (apply (within_part f fn (ECall fn [x])); cbn; auto).
      inversion Hd as [e o t0 Hn Ho| | |x0 t0 Hx]; subst; try discriminate.
      rewrite (call_plain _ _ [x] _ K' Hn) in E by congruence. unfold ReturnType, CallType in E.
      inversion Hn; subst; rewrite (object_found _ _ _ H), Ho in E; discriminate.
    - discriminate.
    - discriminate.
    - discriminate.
    - discriminate.
    - discriminate.
  Qed.

  (** ** Results *)
  Lemma result_pointer n env add pkg t : TypeResult (S n) env add pkg "" (GPointer t) = TypeResult n env add pkg "" t.
  Proof. reflexivity. Qed.
  Fixpoint stars (t : gtype) : nat := match t with GPointer e => S (stars e) | _ => 0 end.
  Lemma result_behind env add pkg t : forall n, TypeResult (stars t + n) env add pkg "" t = TypeResult n env add pkg "" (behind t).
  Proof. induction t; intros n; try reflexivity. cbn [stars behind plus]. rewrite result_pointer. apply IHt. Qed.
  Lemma result_stable fuel more env add pkg name t regs r : fuel <= more ->
    TypeResult fuel env add pkg name t = (regs, Ok r) -> TypeResult more env add pkg name t = (regs, Ok r).
  Proof. intros H E. rewrite (type_mono fuel more); auto. rewrite E. discriminate. Qed.
  Lemma result_same env pkg t t' n regs r : behind t' = behind t -> TypeResult n env true pkg "" t = (regs, Ok r) ->
    exists N, forall fuel, N <= fuel -> TypeResult fuel env true pkg "" t' = (regs, Ok r).
  Proof.
    intros B E. assert (Eb : TypeResult n env true pkg "" (behind t) = (regs, Ok r)).
    { rewrite <- result_behind. eapply result_stable; [|exact E]. lia. }
    rewrite <- B, <- result_behind in Eb. exists (stars t' + n). intros fuel H. eapply result_stable; eauto.
  Qed.

  Lemma value_result f e regs x : no_named_pointers co -> value_of co f e regs x ->
    exists N r, x = ParseResultToField r /\ forall fuel, N <= fuel -> ExprResult co fuel f e = (regs, Ok r).
  Proof.
    intros P (t & n & r & T & S & K & E & ->). destruct (static_type f e t K P S T) as (t' & Et & B).
    destruct (result_same _ _ _ _ _ _ _ B E) as (N & HN). exists N, r. split; [reflexivity|].
    intros fuel H. unfold ExprResult. rewrite Et. auto.
  Qed.

  (** ** Values *)
  Lemma status_value f e z : status co f e z ->
    exists v, ParseInt v = Some z /\ forall fuel, 1 <= fuel -> ExprValue co fuel f e = Ok v.
  Proof.
    intros H. inversion H as [id text z0 Hd H0 Hz|id name obj o t z0 Ho Hc Hz|x id name o t z0 Ho Hc Hz Hl Hin Honly]; subst.
    - exists text. split; [apply P_Fields.decimal_int; auto; now apply digits_in_decimal|].
      intros [|fuel] L; [lia|]. reflexivity.
    - exists (constant_String (CInt z)). split; [now apply ParseInt_itoa|]. intros [|fuel] L; [lia|].
      unfold ExprValue. apply const_value. left. exists name, o. cbn [vx_of].
      split; [unfold object_at in Ho; now rewrite Ho|]. cbn. now rewrite Hc.
    - exists (constant_String (CInt z)). split; [now apply ParseInt_itoa|]. intros [|fuel] L; [lia|].
      unfold ExprValue. apply const_value_once. exists name, o. cbn [vx_of].
      split; [unfold object_at in Ho; now rewrite Ho|]. cbn [v_obj venv_of]. rewrite Hc. split; [reflexivity|].
      split; [exact Hl|]. cbn [v_defs v_pkg venv_of]. unfold defs_of. split.
      + apply in_flat_map. exists (name, Some o). split; [exact Hin|]. now left.
      + intros o' H'. apply in_flat_map in H' as ((n', [o2|]) & H1 & H2); cbn in H2; [|destruct H2].
        destruct H2 as [E|[]]. injection E as -> ->. specialize (Honly _ H1). congruence.
  Qed.

  Lemma stands_initialised f e text : stands_for co f e text -> initialised (venv_of co f) (vx_of co f e) text.
  Proof.
    intros H. induction H as [id text|id name obj o t n names values x text Ho Hv Ha Hn Hw H IH]; [constructor|].
    cbn [vx_of]. unfold object_at in Ho. rewrite Ho.
    assert (D : declares (map ExtractVarName names) (map (vx_of co f) values) name (vx_of co f x)).
    { destruct Hw as (pre & i & ob & post & vpre & vpost & -> & Hpre & -> & Hl).
      exists (map ExtractVarName pre), (map ExtractVarName post), (map (vx_of co f) vpre), (map (vx_of co f) vpost).
      rewrite !map_app. split; [reflexivity|]. split; [|split; [reflexivity|now rewrite !map_length]].
      intros Hin. apply in_map_iff in Hin as (y & Ey & Hy). destruct (Hpre y Hy) as (i' & n' & o' & -> & Hne).
      now apply Hne. }
    eapply in_var with (n := vnode_of co f n); [| |exact D|exact IH].
    - cbn. now rewrite Hv, Ha.
    - destruct Hn as [-> | ->]; [left|right]; reflexivity.
  Qed.

  Lemma text_value f e s : text_of co f e s ->
    exists N, forall fuel, N <= fuel -> ExprValue co fuel f e = Ok s.
  Proof.
    intros (text & Hs & [-> Hu] & Hb). destruct (initialised_value _ _ _ (stands_initialised _ _ _ Hs)) as (n & Hn).
    exists n. intros fuel H. unfold ExprValue. rewrite (Hn fuel H). f_equal. now apply (literal_exact s s Hu).
  Qed.

  (** ** The context *)
  Lemma type_for f id t : pi_typeOf (co_pkg co (pkg_of co f)) id = Some t -> FindTypeForExpr co (pkg_of co f) id = Ok t.
  Proof. intros H. unfold FindTypeForExpr. now rewrite H. Qed.

  Lemma context_step f a rest : is_context co f a ->
    FindArgumentNameByType co f "Context" "github.com/gin-gonic/gin" true (a :: rest) =
    match pa_names a with n :: _ => Ok n | [] => Panic end.
  Proof.
    intros (t & Ht & id & -> & Hp & Hn). cbn [FindArgumentNameByType]. rewrite (type_for _ _ _ Ht).
    cbn [param_name]. rewrite Hp, Hn. reflexivity.
  Qed.
  Lemma other_step f a rest : ~ is_context co f a -> sane_param co f a ->
    FindArgumentNameByType co f "Context" "github.com/gin-gonic/gin" true (a :: rest) =
    FindArgumentNameByType co f "Context" "github.com/gin-gonic/gin" true rest.
  Proof.
    intros Hc [Hp Hb]. cbn [FindArgumentNameByType]. unfold FindTypeForExpr.
    destruct (pi_typeOf (co_pkg co (pkg_of co f)) (pa_type a)) as [t|] eqn:E; [|auto].
    destruct t as [| |t| | | | | |]; auto. destruct t as [b k|id| | | | | | |]; auto; cbn [param_name].
    - destruct (String.eqb_spec b "Context"); subst; [elim (Hb k); exact E|auto].
    - destruct (te_pkg (co_types co) id) as [p|] eqn:Ep.
      + destruct (String.eqb_spec p "github.com/gin-gonic/gin") as [->|]; [|auto].
        destruct (String.eqb_spec (te_name (co_types co) id) "Context") as [En|]; [|auto].
        exfalso. apply Hc. exists (GPointer (GNamed id)). split; [exact E|]. exists id. auto.
      + exfalso. apply Hp. exists id. split; [exact E|exact Ep].
  Qed.

  Lemma context_dec f a : is_context co f a \/ ~ is_context co f a.
  Proof.
    unfold is_context, param_type. destruct (pi_typeOf (co_pkg co (pkg_of co f)) (pa_type a)) as [t|].
    2:{ right. intros (t & H & _). discriminate. }
    assert (D : gin_context co t \/ ~ gin_context co t).
    { destruct t as [| |t| | | | | |]; try (right; intros (i & E & _); discriminate).
      destruct t as [|id| | | | | | |]; try (right; intros (i & E & _); discriminate).
      destruct (te_pkg (co_types co) id) as [p|] eqn:Ep.
      - destruct (string_dec p "github.com/gin-gonic/gin") as [->|Hn].
        + destruct (string_dec (te_name (co_types co) id) "Context") as [En|Hn].
          * left. exists id. auto.
          * right. intros (i & E & E1 & E2). injection E as <-. auto.
        + right. intros (i & E & E1 & E2). injection E as <-. rewrite Ep in E1. now injection E1.
      - right. intros (i & E & E1 & E2). injection E as <-. congruence. }
    destruct D as [D|D]; [left|right]; [eauto|]. intros (t' & E & G). injection E as <-. auto.
  Qed.

  Lemma context_named f ps name : first_context co f ps name -> (forall a, In a ps -> sane_param co f a) ->
    FindArgumentNameByType co f "Context" "github.com/gin-gonic/gin" true ps = Ok name.
  Proof.
    intros (pre & a & post & more & -> & Hc & Hn & Hpre) Hs. induction pre as [|b pre IH]; cbn [app].
    - rewrite (context_step _ _ _ Hc), Hn. reflexivity.
    - rewrite other_step; [|apply Hpre; now left|apply Hs; now left].
      apply IH; intros; [apply Hpre|apply Hs]; now right.
  Qed.

  Lemma no_context f ps : (forall a, In a ps -> ~ is_context co f a /\ sane_param co f a) ->
    FindArgumentNameByType co f "Context" "github.com/gin-gonic/gin" true ps = Ok "".
  Proof.
    induction ps as [|a ps IH]; intros H; [reflexivity|].
    rewrite other_step; [|apply H; now left|apply H; now left]. apply IH. intros; apply H; now right.
  Qed.

  (** ** Receivers *)
  Lemma last_split c : forall a b a' b', has_char c b = false -> has_char c b' = false ->
    a ++ String c b = a' ++ String c b' -> a = a' /\ b = b'.
  Proof.
    assert (Hin : forall a b, has_char c (a ++ String c b) = true).
    { induction a as [|x a IH]; intros b; cbn; [now rewrite Ascii.eqb_refl|]. rewrite IH. apply orb_true_r. }
    induction a as [|x a IH]; intros b [|y a'] b' H H' E; cbn in E.
    - injection E as ->. auto.
    - injection E as <- ->. now rewrite Hin in H.
    - injection E as -> <-. now rewrite Hin in H'.
    - injection E as -> E. destruct (IH _ _ _ H H' E) as [-> ->]. auto.
  Qed.

  Lemma context_string t : gin_context co t -> type_string co t = the_context.
  Proof. intros (id & -> & Hp & Hn). cbn [type_string]. rewrite Hp, Hn. reflexivity. Qed.
  Lemma receiver_string t : receiver co t -> type_string co t = the_context -> gin_context co t.
  Proof.
    intros (id & p & [-> | ->] & Hp & Hs & Hd) E; cbn [type_string] in E; rewrite Hp in E.
    - exfalso. destruct p as [|x p]; [discriminate|]. cbn in E. injection E as -> _. discriminate.
    - exists id. split; [reflexivity|]. cbn in E. injection E as E.
      destruct (last_split "." p (te_name (co_types co) id) "github.com/gin-gonic/gin" "Context" Hd eq_refl E) as [-> ->]. auto.
  Qed.

  (** ** The tree *)
  Lemma passes_mentions ctx fuel fn args : passes ctx (call_of co fuel fn args) <-> mentions ctx args.
  Proof.
    unfold passes, mentions. cbn [c_args call_of]. split.
    - intros (a & Ha & Hi). apply in_map_iff in Ha as (e & <- & He). destruct e; try discriminate.
      cbn in Hi. injection Hi as ->. eauto.
    - intros (id & obj & H). exists (arg_of co fuel (EIdent id ctx obj)). split; [now apply in_map|reflexivity].
  Qed.

  Lemma tree_parts fuel e : ~ is_call e -> tree co fuel e = Node None (map (tree co fuel) (parts e)).
  Proof.
    intros H. destruct e as [| | |fn args| | | | |[t|]| | | |]; cbn [tree parts map]; try reflexivity.
    elim H. unfold is_call. eauto.
  Qed.

  Lemma call_object f fuel fn args o name recv results : denotes co f fn o -> co_obj co o = TFunc name recv results ->
    c_obj (call_of co fuel fn args) f = OFunc name (option_map (type_string co) recv).
  Proof. intros H Ho. cbn. unfold CallObject. now rewrite (call_type_of _ _ _ _ _ _ H Ho). Qed.
  Lemma call_no_object f fuel fn args : no_function co f fn -> exists e, c_obj (call_of co fuel fn args) f = OErr e.
  Proof.
    intros H. cbn. unfold CallObject, CallType. inversion H as [e o Hd Hno|e H1 H2]; subst.
    - inversion Hd as [id n obj o' Hid|x id n o' Hid]; subst; rewrite (object_found _ _ _ Hid);
        destruct (co_obj co o) eqn:Eo; eauto; elim (Hno _ _ _ eq_refl).
    - destruct fn; eauto; [elim (H1 _ _ _ eq_refl)|elim (H2 _ _ _ eq_refl)].
  Qed.

  Lemma context_call_gin f name args es regs : no_named_pointers co -> context_call co f name args es regs ->
    exists N, forall fuel, N <= fuel -> gin_call f name (map (arg_of co fuel) args) es regs.
  Proof.
    intros P H. inversion H as [n content a b rest z x rg Hin Hs Hv|n typ content a rest z Hin Hs|n ev a rest s Hin Hs
                               |n ev a rest x rg Hin Hv|n args' Hno]; subst.
    - destruct (status_value _ _ _ Hs) as (v & Hp & Hf). destruct (value_result _ _ _ _ P Hv) as (N & r & -> & HN).
      exists (S N). intros fuel L. cbn [map]. eapply gc_render; eauto; cbn; [apply Hf; lia|apply HN; lia].
    - destruct (status_value _ _ _ Hs) as (v & Hp & Hf). exists 1. intros fuel L. cbn [map].
      eapply gc_answer; eauto. cbn. now apply Hf.
    - destruct (text_value _ _ _ Hs) as (N & Hf). exists N. intros fuel L. cbn [map]. eapply gc_read; eauto. cbn. now apply Hf.
    - destruct (value_result _ _ _ _ P Hv) as (N & r & -> & HN). exists N. intros fuel L. cbn [map].
      eapply gc_bind; eauto. cbn. now apply HN.
    - exists 0. intros fuel L. now constructor.
  Qed.
End P.

(** ** What the source says is what the tree documents *)
Scheme says_mind := Induction for says Sort Prop with says_all_mind := Induction for says_all Sort Prop.

Lemma source_documents co home : no_named_pointers co -> scopes_agree co home ->
  forall ctx f e es regs last, says co home ctx f e es regs last ->
  exists N, forall fuel, N <= fuel -> documents (func_of co fuel) true ctx f (tree co fuel e) es regs last.
Proof.
  intros P Ag.
  apply (says_mind co home
    (fun ctx f e es regs last _ => exists N, forall fuel, N <= fuel ->
       documents (func_of co fuel) true ctx f (tree co fuel e) es regs last)
    (fun ctx f l es regs last _ => exists N, forall fuel, N <= fuel ->
       documents_all (func_of co fuel) true ctx f (map (tree co fuel) l) es regs last)).
  - intros ctx f e es regs last Hc _ (N & IH). exists N. intros fuel L. rewrite (tree_parts co fuel e Hc).
    constructor. auto.
  - intros ctx f fn args last Hm Hno _ (N & IH). exists N. intros fuel L. cbn [tree]. apply doc_skip.
    + right. split; [now rewrite passes_mentions|]. now apply call_no_object.
    + intros _. exists last. exact (IH fuel L).
  - intros ctx f fn args o name recv results es regs last Hm Hd Ho Hr _ (N & IH). exists N. intros fuel L. cbn [tree].
    eapply doc_func; [now rewrite passes_mentions|eapply call_object; eauto| |exact (IH fuel L)].
    destruct recv as [t|]; cbn; [|discriminate]. intros E. injection E as E. destruct (Hr t eq_refl) as [H1 H2].
    apply H2. now apply receiver_string.
  - intros ctx f fn args o name recv results es1 regs1 es2 regs2 last Hm Hd Ho Hg Hcc _ (N & IH).
    destruct (context_call_gin co f name args es1 regs1 P Hcc) as (N1 & H1). exists (N + N1). intros fuel L. cbn [tree].
    eapply doc_gin; [now rewrite passes_mentions| |apply H1; lia|apply (IH fuel); lia].
    rewrite (call_object co f fuel fn args o name (Some recv) results Hd Ho). cbn. now rewrite (context_string co recv Hg).
  - intros ctx f fn args f' g ctx' es1 regs1 es2 regs2 last Hm Hcf Hl Hfc Hne Hs _ (N1 & IH1) _ (N2 & IH2).
    destruct (followed co home f fn f' g Ag Hcf Hl) as (nf & Hd & Hland).
    exists (N1 + N2). intros fuel L. cbn [tree].
    eapply doc_helper with (nf := nf) (g := g) (ctx' := ctx'); [now rewrite passes_mentions|exact Hd| |exact Hne| |apply (IH2 fuel); lia].
    + rewrite Hland. cbn. unfold context_name. now apply context_named.
    + rewrite Hland. cbn. apply IH1. lia.
  - intros ctx f. exists 0. intros. constructor.
  - intros ctx f e es regs last _ (N & IH). exists N. intros fuel L. apply docs_one. auto.
  - intros ctx f e es1 regs1 l1 e' l es2 regs2 last _ (N1 & IH1) _ (N2 & IH2). exists (N1 + N2). intros fuel L.
    cbn [map]. eapply docs_cons; [apply IH1; lia|apply IH2; lia].
Qed.
