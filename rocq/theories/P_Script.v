(** Handlers for examples: a list of calls of methods of the context, with literals or a pointer to a
    variable as arguments. *)
From Coq Require Import List String Ascii Bool ZArith Arith Lia.
From Verif Require Import BaseStr BaseMap M_Types M_Tags M_Collect M_Paths M_TypeTrav M_OpenAPI M_Parse M_Clean M_FS M_Service S_Collect S_OpenAPI S_Parse S_Paths S_Service S_Cache S_Files S_TypeTrav S_Whole S_Example M_Value S_Value.
From Verif Require Import M_Resolve S_Resolve P_Resolve S_Typed P_Typed S_Sends P_Sends S_Names Props_Resolve Props_Source Props_Typed.
Import ListNotations.
Local Open Scope string_scope.

Section Script.
  Context (types : TypeEnv) (T : gtype) (asks : list (string * list ex)).

  Definition step (k : nat) (c : string * list ex) : ex := EOther [ECall (ESel (def_ 0 "c") (3 + k) (fst c)) (snd c)].
  Fixpoint steps (k : nat) (l : list (string * list ex)) : list ex := match l with [] => [] | c :: l => step k c :: steps (S k) l end.
  Definition script_body : ex := EOther (steps 0 asks).
  Definition script_objects : list tobj :=
    TVar ctx_type :: TVar GOther :: TVar T :: map (fun c => TFunc (fst c) (Some ctx_type) []) asks.
  Definition script_pkg (path : string) (scope : string -> option file) : pinfo :=
    mkPkg path scope (fun id => if Nat.ltb id (3 + List.length asks) then Some id else None) (fun id => if Nat.eqb id 30 then Some ctx_type else None) [].
  Definition script : code :=
    mkCode (fun f => mkFile 0 [("", 1)] (one_of "Do" (Some (DkFunc 0))))
      (fun p => match p with 0 => script_pkg "app" (one_of "Do" 0) | _ => script_pkg ginPath (fun _ => None) end)
      (fun o => nth o script_objects (TVar GOther)) (fun _ => None) (fun o => if Nat.ltb o 3 then 0 else 1)
      types (fun g => nth g [mkFn "" [mkPar ["c"] 30] script_body] (mkFn "" [] (EOther []))).
  Definition script_packages : string -> option (list (string * file * list fdecl)) :=
    one_of "app" [("/src/app/do.go", 0, [mkFD "Do" (fun _ => 10%Z) 0 []])].
  Definition script_program (n : nat) (main : string) : program := program_of script n script_packages (fun s => s).
  Definition script_env (n : nat) : Env :=
    mkEnv no_fault (fun _ _ => Some "do.go") (fun _ _ => false)
      (fun _ main routes comps => GinParseRoutes 9 (script_program n main) routes comps) (fun _ _ => None) plain_orders.

  (** The arguments: texts, numbers and a pointer to the variable. *)
  Definition script_arg (a : ex) : Prop := a = sale_ref \/ exists id b s, a = ELit id b s /\ 100 <= id.
  Hypothesis Hctx : te_pkg types 0 = Some ginPath /\ te_name types 0 = "Context".
  Hypothesis Hargs : forall m args a, In (m, args) asks -> In a args -> script_arg a.

  Lemma script_context : gin_context script ctx_type.
  Proof. destruct Hctx. exists 0. repeat split; auto. Qed.
  Lemma script_func k m args : nth_error asks k = Some (m, args) -> co_obj script (3 + k) = TFunc m (Some ctx_type) [].
  Proof.
    intros H. change (co_obj script (3 + k)) with (nth k (map (fun c => TFunc (fst c) (Some ctx_type) []) asks) (TVar GOther)).
    apply nth_error_nth. rewrite nth_error_map, H. reflexivity.
  Qed.
  Lemma script_object f id o : object_at script f id o -> o = id /\ id < 3 + List.length asks.
  Proof.
    unfold object_at. assert (E : pi_objectOf (co_pkg script (pkg_of script f)) id = if Nat.ltb id (3 + List.length asks) then Some id else None) by reflexivity.
    rewrite E. destruct (Nat.ltb_spec id (3 + List.length asks)); [|discriminate]. intros X. injection X as <-. auto.
  Qed.
  Lemma script_at f id : id < 3 + List.length asks -> object_at script f id id.
  Proof.
    intros L. unfold object_at. assert (E : pi_objectOf (co_pkg script (pkg_of script f)) id = if Nat.ltb id (3 + List.length asks) then Some id else None) by reflexivity.
    rewrite E. destruct (Nat.ltb_spec id (3 + List.length asks)); [reflexivity|lia].
  Qed.
  Lemma no_context args : (forall a, In a args -> script_arg a) -> ~ mentions "c" args.
  Proof. intros H (id & obj & I). destruct (H _ I) as [E|(i & b & s & E & _)]; discriminate. Qed.
  Lemma steps_in l : forall k x, In x (steps k l) <-> exists j c, nth_error l j = Some c /\ x = step (k + j) c.
  Proof.
    induction l as [|c l IH]; intros k x; cbn [steps In].
    - split; [intros []|intros (j & c & H & _); destruct j; discriminate].
    - rewrite IH. split.
      + intros [<-|(j & c' & H & ->)]; [exists 0, c; now rewrite Nat.add_0_r|exists (S j), c'; cbn; split; auto; f_equal; lia].
      + intros (j & c' & H & ->). destruct j as [|j]; cbn in H; [injection H as <-; left; f_equal; lia|]. right. exists j, c'. split; auto. f_equal. lia.
  Qed.
  Lemma script_denotes k m args : nth_error asks k = Some (m, args) -> denotes script 0 (ESel (def_ 0 "c") (3 + k) m) (3 + k).
  Proof.
    intros H. constructor. apply script_at. assert (k < List.length asks) by (apply nth_error_Some; congruence). lia.
  Qed.

  Lemma script_called m args : In (m, args) asks -> calls script no_home "c" 0 script_body m args 0.
  Proof.
    intros H. assert (HA := fun a => Hargs m args a H). apply In_nth_error in H as (k & H).
    eapply ca_part; [cbn [parts script_body]; apply steps_in; exists k, (m, args); eauto|].
    eapply ca_part; [left; reflexivity|]. eapply (ca_here script no_home "c" 0 _ _ (3 + k) m ctx_type []).
    - now apply no_context.
    - now apply script_denotes with (args := args).
    - now apply script_func with (args := args).
    - exact script_context.
  Qed.
  Lemma arg_quiet a : script_arg a -> forall x, within x a -> forall fn args, x <> ECall fn args.
  Proof.
    intros [-> |(i & b & s & -> & _)] x W fn ar; apply within_inv in W as [-> |(p & I & W)]; try discriminate; [|destruct I].
    destruct I as [<-|[]]. apply within_inv in W as [-> |(p & I & W)]; [discriminate|destruct I].
  Qed.
  Lemma quiet_calls e m args f f0 ctx : (forall x, within x e -> forall fn args, x <> ECall fn args) -> ~ calls script no_home ctx f e m args f0.
  Proof.
    intros H C. assert (X : exists fn ar, within (ECall fn ar) e).
    { clear - C. induction C as [? ? fn ar|? ? p e ? ? ? I C IH|? ? fn ar]; [exists fn, ar; constructor| |exists fn, ar; constructor].
      destruct IH as (fn & ar & W). exists fn, ar. econstructor; eauto. }
    destruct X as (fn & ar & W). exact (H _ W fn ar eq_refl).
  Qed.
  Lemma script_calls m args f0 : calls script no_home "c" 0 script_body m args f0 -> In (m, args) asks /\ f0 = 0.
  Proof.
    intros C. inversion C as [|? ? p ? ? ? ? I C'|]; subst. cbn [parts script_body] in I. apply steps_in in I as (k & (m' & ar) & H & ->). cbn in C'.
    assert (HA : forall a, In a ar -> script_arg a) by (intros a; eapply Hargs; eapply nth_error_In; eauto).
    inversion C' as [|? ? p ? ? ? ? I C2|]; subst. destruct I as [<-|[]]. cbn [fst snd] in C2.
    inversion C2 as [? ? ? ? o nm' recv rs M D E G|? ? p ? ? ? ? I C3|? ? ? ? ? ? ? ? ? ? M]; subst.
    - inversion D as [|? ? ? ? Ob]; subst. apply script_object in Ob as (-> & _).
      change (co_obj script (3 + k) = TFunc m (Some recv) rs) in E. rewrite (script_func k m' args H) in E. injection E as <- _ _.
      split; auto. eapply nth_error_In; eauto.
    - exfalso. destruct I as [<-|I].
      + revert C3. apply quiet_calls. intros x W fn ar' ->. apply within_inv in W as [W|(p & [<-|[<-|[]]] & W)];
          [discriminate| |]; (apply within_inv in W as [W|(p & [] & _)]; discriminate).
      + revert C3. apply quiet_calls. apply arg_quiet. auto.
    - exfalso. revert M. now apply no_context.
  Qed.

  Lemma arg_silent a : script_arg a -> says script no_home "c" 0 a [] [] false.
  Proof. intros [-> |(i & b & s & -> & _)]; quiet. Qed.
  Lemma args_silent e args : says script no_home "c" 0 e [] [] false -> (forall a, In a args -> script_arg a) ->
    says_all script no_home "c" 0 (e :: args) [] [] false.
  Proof.
    revert e. induction args as [|a args IH]; intros e H HA; [now apply sa_one|].
    eapply (sa_cons _ _ _ _ _ [] [] _ _ _ [] []); [exact H|]. apply IH; [apply arg_silent; apply HA; cbn; auto|]. intros b I. apply HA. cbn. auto.
  Qed.
  Lemma step_says k m args es regs : nth_error asks k = Some (m, args) -> context_call script 0 m args es regs ->
    says script no_home "c" 0 (step k (m, args)) es regs false.
  Proof.
    intros H C. assert (HA : forall a, In a args -> script_arg a) by (intros a; eapply Hargs; eapply nth_error_In; eauto).
    apply says_node; [no_call|]. apply sa_one. cbn [fst snd]. rewrite <- (app_nil_r es), <- (app_nil_r regs).
    eapply (says_context script no_home "c" 0 _ _ (3 + k) m ctx_type []).
    - now apply no_context.
    - now apply script_denotes with (args := args).
    - now apply script_func with (args := args).
    - exact script_context.
    - exact C.
    - apply args_silent; auto. quiet.
  Qed.
  Inductive each : list (string * list ex) -> list S_Parse.event -> list Result -> Prop :=
  | each_nil : each [] [] []
  | each_cons m args l es regs es' regs' : context_call script 0 m args es regs -> each l es' regs' -> each ((m, args) :: l) (es ++ es') (regs ++ regs').
  Lemma steps_say l es regs : each l es regs -> forall k, (forall j c, nth_error l j = Some c -> nth_error asks (k + j) = Some c) ->
    says_all script no_home "c" 0 (steps k l) es regs false.
  Proof.
    induction 1 as [|m args l es regs es' regs' C E IH]; intros k H; [constructor|]. cbn [steps].
    assert (S1 : says script no_home "c" 0 (step k (m, args)) es regs false).
    { apply step_says; auto. rewrite <- (Nat.add_0_r k). apply H. reflexivity. }
    assert (S2 := IH (S k) ltac:(intros j c Hj; rewrite Nat.add_succ_comm; apply H; exact Hj)).
    destruct l as [|c l]; cbn [steps] in *.
    - inversion E; subst. rewrite !app_nil_r. now apply sa_one.
    - eapply sa_cons; eauto.
  Qed.
  Lemma script_says es regs : each asks es regs -> says script no_home "c" 0 script_body es regs false.
  Proof. intros H. apply says_node; [no_call|]. cbn [parts script_body]. apply steps_say; auto. Qed.

  (** The variable. *)
  Lemma script_var f : typed script f (id_ 2 "v") T.
  Proof. eapply ty_var with (o := 2); [constructor; apply script_at; lia|reflexivity]. Qed.
  Lemma script_addr f : typed script f sale_ref (GPointer T).
  Proof. apply ty_addr, script_var. Qed.
  Lemma script_kept f : builtins_kept script f sale_ref.
  Proof. apply no_builtins; intros id name obj W; dig W; intros [E|[E|[E|[]]]]; discriminate. Qed.
  Lemma script_value f n regs r : TypeResult n types true (Some "app") "" T = (regs, Ok r) -> value_of script f sale_ref regs (ParseResultToField r).
  Proof.
    intros E. exists (GPointer T), (S n), r. split; [apply script_addr|]. split; [repeat constructor|]. split; [apply script_kept|].
    split; [|reflexivity]. rewrite result_pointer. exact E.
  Qed.
  Lemma script_addr_only f T' : typed script f sale_ref T' -> T' = GPointer T.
  Proof.
    intros Ty. inversion Ty as [e o t X|e o v t X| | | |x t X| | | | | | | | | | | |]; subst; try (inversion X; fail).
    f_equal. clear Ty. inversion X as [e o t' D' E|e o v t' D' E| | | | | | | | | | | | | | | |]; subst; inversion D' as [? ? ? ? Ob|]; subst;
      apply script_object in Ob as (-> & _); cbn in E; congruence.
  Qed.

  Lemma script_documented id : documented script id -> reach types true T (GNamed id).
  Proof.
    intros (T' & (g & f & fn & args & o & name & recv & results & a & x & W & D & Eo & _ & Ia & Wx & A) & R).
    assert (WB : within (ECall fn args) script_body).
    { destruct g as [|g]; [exact W|]. assert (E : co_func script (S g) = mkFn "" [] (EOther [])) by (destruct g; reflexivity).
      rewrite E in W. apply within_inv in W as [W|(p & [] & _)]; discriminate. }
    assert (SA : script_arg a).
    { apply within_inv in WB as [WB|(p & I & WB)]; [discriminate|]. cbn [parts script_body] in I. apply steps_in in I as (k & (m & ar) & H & ->).
      assert (HA : forall a, In a ar -> script_arg a) by (intros y; eapply Hargs; eapply nth_error_In; eauto).
      apply within_inv in WB as [WB|(p & I & WB)]; [discriminate|]. destruct I as [<-|[]]. cbn [fst snd] in WB.
      apply within_inv in WB as [WB|(p & I & WB)]; [injection WB as _ <-; auto|]. exfalso. destruct I as [<-|I].
      - apply within_inv in WB as [WB|(p & [<-|[<-|[]]] & WB)]; [discriminate| |]; (apply within_inv in WB as [WB|(p & [] & _)]; discriminate).
      - exact (arg_quiet p (HA p I) _ WB _ _ eq_refl). }
    assert (XX : x = sale_ref \/ x = id_ 2 "v" \/ exists i b s, x = ELit i b s /\ 100 <= i).
    { destruct SA as [-> |(i & b & s & -> & L)]; apply within_inv in Wx as [-> |(p & I & W')]; eauto 7; [|destruct I].
      destruct I as [<-|[]]. apply within_inv in W' as [-> |(p & [] & _)]. auto. }
    assert (TT : T' = T).
    { assert (ND : forall nm q, ~ In (nm, Some q) (pi_defs (co_pkg script (pkg_of script f)))) by (intros nm q []).
      inversion A as [e o' T2 D2 H2|id' nm ob o' T2 No I2 H2|e id' T2 E2 H2]; subst.
      - destruct XX as [-> |[-> |(i & b & s & -> & _)]]; inversion D2 as [? ? ? ? Ob|? ? ? ? Ob]; subst; apply script_object in Ob as (-> & _); cbn in H2; auto.
      - exfalso. eapply ND; eauto.
      - exfalso. change (pi_typeOf (co_pkg script (pkg_of script f)) id') with (if Nat.eqb id' 30 then Some ctx_type else None) in H2.
        destruct XX as [-> |[-> |(i & b & s & -> & L)]]; destruct E2 as [(l & E)|[(l & E)|(s' & y & E)]]; try discriminate.
        injection E as -> _ _. destruct (Nat.eqb_spec id' 30); [lia|discriminate]. }
    now subst T'.
  Qed.

  Lemma script_handled n main method path : handler_of (script_program n main) (entry_route (mkGin method path "app.Do" "/src/app/do.go" 10) "do.go") 0 0 (Some "Do").
  Proof.
    exists "app", "Do", [], [("/src/app/do.go", 0, [mkFD "Do" (fun _ => 10%Z) 0 []])], [], "/src/app/do.go", [],
      (mkFD "Do" (fun _ => 10%Z) 0 []), [], [].
    split; [reflexivity|]. split; [reflexivity|]. split; [now repeat constructor|]. split; [constructor|].
    split; [reflexivity|]. split; [reflexivity|]. split; [reflexivity|]. split; [intros x []|].
    split; [reflexivity|]. split; [intros d' [[]|[]]|]. left. repeat split.
  Qed.

  Lemma script_param : first_context script 0 (fs_params (co_func script 0)) "c" /\ forall a, In a (fs_params (co_func script 0)) -> sane_param script 0 a.
  Proof.
    split.
    - exists [], (mkPar ["c"] 30), [], []. split; [reflexivity|]. split; [exists ctx_type; split; [reflexivity|exact script_context]|]. split; [reflexivity|intros b []].
    - intros a [<-|[]]. split; [intros (id & H & N)|intros k H]; cbn in H; [|discriminate H].
      injection H as <-. unfold script in N. cbn in N. destruct Hctx. congruence.
  Qed.
End Script.

(** A text as an argument. *)
Definition text_arg (id : nat) (s : string) : ex := ELit id true (quoted s).
Lemma script_text types T asks f id s : interpreted s s (quoted s) -> has_char "\" s = false -> text_of (script types T asks) f (text_arg id s) s.
Proof. intros H K. exists (quoted s). split; [constructor|]. auto. Qed.
