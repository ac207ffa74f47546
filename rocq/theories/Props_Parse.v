(** Property theorems about the handler analysis: C10, C30-C33, C56-C58. *)
From Coq Require Import List String Ascii Bool ZArith Arith Lia.
From Verif Require Import BaseStr M_Types M_Paths M_Tags M_Collect S_Collect M_TypeTrav
  M_Parse S_Parse P_Parse P_Parse2 P_Parse3 P_Parse4.
Import ListNotations.
Local Open Scope string_scope.

(** ** Example programs *)

(** An argument that is a literal; an argument that is the identifier c; one whose value cannot be
    found; a struct. *)
Definition lit_arg (v : string) : arg := mkArg None (fun _ => Ok v) (fun _ => ([], Ok (res "string" None))).
Definition ctx_arg : arg := mkArg (Some "c") (fun _ => Err "value not retrievable") (fun _ => ([], Err "unsupported")).
Definition computed_arg : arg := mkArg None (fun _ => Err "value not retrievable") (fun _ => ([], Ok (res "string" None))).
Definition item_result : Result := res_with_name "Item" (res "Item" (Some "app")).
Definition item_arg : arg := mkArg None (fun _ => Err "value not retrievable") (fun _ => ([item_result], Ok (res "Item" (Some "app")))).
Definition gin (name : string) (args : list arg) : call :=
  mkCall args (fun _ => DErr) (fun _ => OFunc name (Some the_context)).
(** A gin call that can only be resolved in file 0. *)
Definition gin0 (name : string) (args : list arg) : call :=
  mkCall args (fun _ => DErr) (fun f => if Nat.eqb f 0 then OFunc name (Some the_context) else OErr "object not found").
Definition helper (g : funcref) (f : option file) : call :=
  mkCall [ctx_arg] (fun _ => DFound f (Some g)) (fun _ => OFunc "helper" None).
Definition len_of (a : arg) : call := mkCall [a] (fun _ => DErr) (fun _ => OErr "builtin").
Definition leaf : node := Node None [].
Definition does (c : call) : node := Node (Some c) [leaf].
Definition gfunc (doc : string) (body : list node) : func := mkFunc doc (fun _ => Ok "c") (Node None body).
Definition prog_of (fs : list func) (ds : list fdecl) : program :=
  mkProg (fun g => nth g fs (gfunc "" []))
    (fun p => if String.eqb p "app" then Some [("/src/app/h.go", 0, ds)] else None) [] (fun s => s).
Definition handle : fdecl := mkFD "Handle" (fun _ => 10%Z) 0 [].
Definition items : Route := mkRoute "app.Handle" "h.go" 10 "GET" "/items/:id" [] [] [] [] "" "" [] [].
Definition idParam : Param := mkParam "id" (field_of_type "string") true false false false.

Lemma handled fs : handler_of (prog_of fs [handle]) items 0 0 (Some "Handle").
Proof.
  exists "app", "Handle", [], [("/src/app/h.go", 0, [handle])], [], "/src/app/h.go", [], handle, [], [].
  split; [reflexivity|]. split; [reflexivity|]. split; [now repeat constructor|]. split; [constructor|].
  split; [reflexivity|]. split; [reflexivity|]. split; [reflexivity|]. split; [intros x []|].
  split; [reflexivity|]. split; [intros d' [[]|[]]|]. left. repeat split.
Qed.

Lemma not_passing ctx c : ArgIndex ctx c = false -> ~ passes ctx c.
Proof. intros H. now apply not_passes. Qed.

(** func Handle(c *gin.Context) { page := c.Query("page"); validate(c); c.JSON(200, item) } with
    validate, in file 1 of another package, setting a header and reading a form value. *)
Definition shop : list func :=
  [gfunc "Lists the items." [does (gin "Query" [lit_arg "page"]); does (helper 1 (Some 1)); does (gin "JSON" [lit_arg "200"; item_arg])];
   gfunc "" [does (gin "Header" [lit_arg "X-Total"; computed_arg]); does (gin "PostForm" [lit_arg "name"])]].
Definition shop_events : list event :=
  [EQuery (str_param "page" false false); ERespHeader (str_param "X-Total" false false);
   EBody (form_value "name" false false);
   EReturn (mkRet 200 "application/json" (ParseResultToField (res "Item" (Some "app"))))].

Lemma leaf_documents funcs strict ctx f : documents funcs strict ctx f leaf [] [] false.
Proof. repeat constructor. Qed.

Lemma gin_documents funcs strict ctx f name args es regs :
  ArgIndex ctx (gin name args) = false -> gin_call f name args es regs ->
  documents funcs strict ctx f (does (gin name args)) es regs false.
Proof.
  intros H G. unfold does. rewrite <- (app_nil_r es), <- (app_nil_r regs).
  eapply doc_gin with (name := name); [now apply not_passing|reflexivity|exact G|].
  constructor. apply leaf_documents.
Qed.

Lemma shop_documents strict :
  documents (pr_funcs (prog_of shop [handle])) strict "c" 0 (fn_body (pr_funcs (prog_of shop [handle]) 0))
    shop_events [item_result] false.
Proof.
  apply doc_plain.
  apply (docs_cons _ _ "c" 0 _ _ _ [EQuery (str_param "page" false false)] [] false
           [ERespHeader (str_param "X-Total" false false); EBody (form_value "name" false false);
            EReturn (mkRet 200 "application/json" (ParseResultToField (res "Item" (Some "app"))))] [item_result]).
  { apply gin_documents; [reflexivity|]. eapply (gc_read 0 "Query" (fun n => EQuery (str_param n false false)));
    [now left|reflexivity]. }
  apply (docs_cons _ _ "c" 0 _ _ _ [ERespHeader (str_param "X-Total" false false); EBody (form_value "name" false false)] []
           false [EReturn (mkRet 200 "application/json" (ParseResultToField (res "Item" (Some "app"))))] [item_result]).
  { apply (doc_helper _ _ "c" 0 (helper 1 (Some 1)) [leaf] (Some 1) 1 "c"
             [ERespHeader (str_param "X-Total" false false); EBody (form_value "name" false false)] [] [] [] false).
    - exists ctx_arg. split; [now left|reflexivity].
    - reflexivity.
    - reflexivity.
    - discriminate.
    - apply doc_plain.
      apply (docs_cons _ _ "c" 1 _ _ _ [ERespHeader (str_param "X-Total" false false)] [] false
               [EBody (form_value "name" false false)] []).
      + apply gin_documents; [reflexivity|].
        eapply (gc_read 1 "Header" (fun n => ERespHeader (str_param n false false))); [simpl; tauto|reflexivity].
      + apply docs_one. apply gin_documents; [reflexivity|].
        eapply (gc_read 1 "PostForm" (fun n => EBody (form_value n false false))); [simpl; tauto|reflexivity].
    - apply docs_one. apply leaf_documents. }
  apply docs_one. apply gin_documents; [reflexivity|].
  eapply (gc_render 0 "JSON" "application/json"); [now left|reflexivity|reflexivity|reflexivity].
Qed.

(** ** C30: what a handler documents *)

(** A route whose handler is found, and whose tree documents the events [es]: the analysis ends and
    the route has exactly these events, in order, added to it, and the types registered.
    Missing from the full claim: calls not followed must have nothing documented in their
    arguments; see the refutations. *)
Theorem C30_recorded_partial : forall prog r f g op ctx es regs last,
  handler_of prog r f g op -> pr_customs prog = [] ->
  fn_ctx (pr_funcs prog g) f = Ok ctx -> ctx <> "" ->
  documents (pr_funcs prog) true ctx f (fn_body (pr_funcs prog g)) es regs last ->
  exists N, forall fuel, N <= fuel -> forall comps,
  parseRoute fuel prog r comps = Ok (analysed (fn_doc (pr_funcs prog g)) op es r, register comps regs).
Proof. intros. eapply parseRoute_sound; eauto. Qed.
Print Assumptions C30_recorded_partial.

Example C30_nontrivial :
  handler_of (prog_of shop [handle]) items 0 0 (Some "Handle") /\
  documents (pr_funcs (prog_of shop [handle])) true "c" 0 (fn_body (pr_funcs (prog_of shop [handle]) 0))
    shop_events [item_result] false /\
  exists r comps, parseRoute 5 (prog_of shop [handle]) items [] = Ok (r, comps) /\
    map p_name (rt_pathParams r) = ["id"] /\ map p_name (rt_queryParams r) = ["page"] /\
    map b_name (rt_body r) = ["name"] /\ map p_name (rt_respHeaders r) = ["X-Total"] /\
    map r_status (rt_returns r) = [200%Z] /\ rt_doc r = "Lists the items." /\ map f_name comps = ["Item"].
Proof.
  split; [apply handled|]. split; [apply shop_documents|]. do 2 eexists. split; [vm_compute; reflexivity|]. repeat split.
Qed.

(** Full claim refuted: the query parameter read in the argument of a builtin (or of a conversion, or
    of a call of a function value) is not recorded: len(c.Query("q")). *)
Definition lost : list func :=
  [gfunc "" [Node (Some (len_of computed_arg)) [does (gin "Query" [lit_arg "q"])]; does (gin "JSON" [lit_arg "200"; item_arg])]].
Theorem C30_recorded_refuted : exists prog r f g op c p r' comps',
  handler_of prog r f g op /\ pr_customs prog = [] /\ occurs c (fn_body (pr_funcs prog g)) /\
  c_obj c f = OFunc "Query" (Some the_context) /\ gin_call f "Query" (c_args c) [EQuery p] [] /\
  (forall fuel, 2 <= fuel -> parseRoute fuel prog r [] = Ok (r', comps')) /\ ~ In p (rt_queryParams r').
Proof.
  exists (prog_of lost [handle]), items, 0, 0, (Some "Handle"), (gin "Query" [lit_arg "q"]),
         (str_param "q" false false).
  do 2 eexists. split; [apply handled|]. split; [reflexivity|]. split.
  { eapply oc_in; [now left|]. eapply oc_in; [now left|]. constructor. }
  split; [reflexivity|]. split.
  { eapply (gc_read 0 "Query" (fun n => EQuery (str_param n false false))); [now left|reflexivity]. }
  split.
  - intros fuel H. destruct fuel as [|[|fuel]]; try lia. vm_compute. reflexivity.
  - vm_compute. tauto.
Qed.
Print Assumptions C30_recorded_refuted.

(** c.Data is never recorded: whatever its arguments are, building it fails and the current route is
    lost (the mapper reads the ignored second parameter as the result). *)
Theorem C30_data_refuted : forall again ctx here c s cur,
  (forall a, In a (c_args c) -> a_ident a <> Some ctx) ->
  c_obj c (ps_file s) = OFunc "Data" (Some the_context) ->
  forall s' l' b, visit again [] ctx here c s (mkL cur None) = Ok (s', l', b) ->
  l_cur l' = None /\ l_err l' <> None /\ ps_heap s' = ps_heap s.
Proof.
  intros again ctx here c s cur Hargs Ho s' l' b H. unfold visit in H. cbn [customs l_cur] in H.
  assert (E : ArgIndex ctx c = false).
  { apply not_passes. intros (a & Ha & Hi). now apply (Hargs a Ha). }
  rewrite E, Ho in H. rewrite String.eqb_refl in H. cbn [method] in H.
  change (method "Data") with (Some ([PStatus; PIgnored; PExpr], status_result "", true)) in H.
  cbn iota beta in H. unfold build in H.
  destruct (snd (eval_ops (ps_file s) (c_args c) 0 ([] ++ [PStatus; PIgnored; PExpr]))) as [vals| | |] eqn:Ev;
    try discriminate.
  - assert (M : status_result "" vals = None).
    { destruct (eval_ops (ps_file s) (c_args c) 0 ([] ++ [PStatus; PIgnored; PExpr])) as [regs o] eqn:Eo.
      cbn [snd] in Ev. subst o. apply eval_ops_ok in Eo.
      inversion Eo; subst. match goal with H : ops_values _ _ 1 _ _ _ |- _ => inversion H; subst end.
      match goal with H : op_value _ _ 1 PIgnored _ _ |- _ => inversion H; subst end.
      unfold status_result. simpl. destruct v; reflexivity. }
    rewrite M in H. cbn [bind fst snd] in H. injection H as <- <- <-. repeat split. discriminate.
  - cbn [bind fst snd] in H. injection H as <- <- <-. repeat split. discriminate.
Qed.
Print Assumptions C30_data_refuted.

(** ** C31: termination *)

(** Full claim refuted: a handler that passes its context to itself. *)
Theorem C31_terminates_refuted : exists prog r f g op,
  handler_of prog r f g op /\ pr_customs prog = [] /\
  (forall h c, occurs c (fn_body (pr_funcs prog h)) -> args_end c) /\
  forall fuel, parseRoute fuel prog r [] = OutOfFuel.
Proof.
  exists (prog_of [gfunc "" [does (helper 0 None)]] [handle]), items, 0, 0, (Some "Handle").
  split; [apply handled|]. split; [reflexivity|]. split.
  { intros h c H a f Ha.
    assert (Hc : c = helper 0 None).
    { destruct h as [|[|h]]; simpl in H; inversion H as [|? ? n Hn Ho]; subst; try (destruct Hn; fail).
      destruct Hn as [<-|[]]. inversion Ho as [|? ? n' Hn' Ho']; subst; auto.
      destruct Hn' as [<-|[]]. inversion Ho' as [|? ? ? Hn'']; subst. destruct Hn''. }
    subst c. destruct Ha as [<-|[]]. split; discriminate. }
  set (prog := prog_of [gfunc "" [does (helper 0 None)]] [handle]).
  assert (V : forall again s, (forall s', ps_file s' = 0 -> again 0 (Some 0) 0 s' = OutOfFuel) -> ps_file s = 0 ->
            inspect (visit again [] "c" 0) (Node None [does (helper 0 None)]) s (mkL (Some 0) None) = OutOfFuel).
  { intros again [sf sh sc] Ha Hs. simpl in Hs. subst sf. cbn. now rewrite Ha. }
  assert (D : forall fuel level s, parseFunction fuel (pr_funcs prog) [] 0 (Some 0) 0 level s = OutOfFuel).
  { induction fuel as [|fuel IH]; intros level s; [reflexivity|].
    rewrite parseFunction_eq. cbn zeta.
    assert (E : (if Nat.eqb level 0
                 then let doc := FormatDoc (fn_doc (pr_funcs prog 0)) in
                      if String.eqb doc "" then Ok (set_file 0 s)
                      else match nth_error (ps_heap (set_file 0 s)) 0 with
                           | None => Panic
                           | Some r => Ok (store 0 (with_doc (TrimSpace doc) r) (set_file 0 s))
                           end
                 else Ok (set_file 0 s)) = Ok (set_file 0 s)) by (destruct (Nat.eqb level 0); reflexivity).
    cbn zeta in E. rewrite E. clear E.
    unfold bind at 1.
    change (fn_ctx (pr_funcs prog 0) (ps_file (set_file 0 s))) with (@Ok string "c").
    unfold bind at 1. change (String.eqb "c" "") with false. cbn iota.
    change (fn_body (pr_funcs prog 0)) with (Node None [does (helper 0 None)]).
    rewrite V; [reflexivity| |reflexivity].
    intros s' _. unfold deeper. apply IH. }
  intros fuel.
  change (parseRoute fuel prog items []) with
    (s <- decls fuel prog "Handle" 10 [handle] (mkPS 0 [with_pathParams (ExtractParamsFromPath (rt_path items)) items] []) ;;
     match nth_error (ps_heap s) 0 with None => Panic | Some r => Ok (r, ps_comps s) end).
  assert (Q : forall r, decls fuel prog "Handle" 10 [handle] (mkPS 0 [r] []) = OutOfFuel).
  { intros r. cbn -[parse0 prog]. unfold parse0. change (pr_customs prog) with (@nil customFunc).
    change (ps_file _) with 0. now rewrite D. }
  now rewrite Q.
Qed.
Print Assumptions C31_terminates_refuted.

(** When no chain of context-passing calls is infinite, the analysis of all routes ends, whatever
    fails on the way and whatever the custom functions do. *)
Theorem C31_terminates_partial : forall prog,
  (forall g, Acc (fun h' h => calls (pr_funcs prog) h h') g) ->
  (forall h f, fn_ctx (pr_funcs prog h) f <> OutOfFuel) ->
  (forall h c, occurs c (fn_body (pr_funcs prog h)) -> args_end c) ->
  forall routes comps, exists N o, o <> OutOfFuel /\
  forall fuel, N <= fuel -> GinParseRoutes fuel prog routes comps = o.
Proof.
  intros prog WF Hctx Hargs routes comps.
  exact (parse_from_converges prog WF Hctx Hargs (List.length routes) 0 routes comps).
Qed.
Print Assumptions C31_terminates_partial.

Lemma shop_occurs g c : occurs c (fn_body (pr_funcs (prog_of shop [handle]) g)) ->
  g < 2 /\ (passes "c" c -> g = 0 /\ c = helper 1 (Some 1)) /\ args_end c.
Proof.
  assert (L : forall c0, ~ occurs c0 leaf).
  { intros c0 H. inversion H as [|? ? ? Hn]; subst. destruct Hn. }
  assert (Dd : forall c0 c1, occurs c0 (does c1) -> c0 = c1).
  { intros c0 c1 H. inversion H as [|? ? ? Hn Ho]; subst; auto.
    destruct Hn as [<-|[]]. now apply L in Ho. }
  assert (A : forall name args a f, In a (c_args (gin name args)) -> In a [lit_arg "page"; lit_arg "200"; item_arg; lit_arg "X-Total"; computed_arg; lit_arg "name"] ->
              a_value a f <> OutOfFuel /\ snd (a_result a f) <> OutOfFuel).
  { intros name args a f _ H. simpl in H.
    repeat (destruct H as [<-|H]; [split; discriminate|]). contradiction. }
  assert (NP : forall name args, ArgIndex "c" (gin name args) = false -> passes "c" (gin name args) -> False).
  { intros name args H1 H2. apply passes_ArgIndex in H2. congruence. }
  intros H. destruct g as [|[|g]].
  - inversion H as [|? ? n Hn Ho]; subst. simpl in Hn.
    destruct Hn as [<-|[<-|[<-|[]]]]; apply Dd in Ho; subst c.
    + split; [lia|]. split; [intros P; exfalso; revert P; now apply NP|].
      intros a f Ha. apply (A "Query" [lit_arg "page"]); auto. simpl in *. tauto.
    + split; [lia|]. split; [auto|]. intros a f [<-|[]]. split; discriminate.
    + split; [lia|]. split; [intros P; exfalso; revert P; now apply NP|].
      intros a f Ha. apply (A "JSON" [lit_arg "200"; item_arg]); auto. simpl in *. tauto.
  - inversion H as [|? ? n Hn Ho]; subst. simpl in Hn.
    destruct Hn as [<-|[<-|[]]]; apply Dd in Ho; subst c.
    + split; [lia|]. split; [intros P; exfalso; revert P; now apply NP|].
      intros a f Ha. apply (A "Header" [lit_arg "X-Total"; computed_arg]); auto. simpl in *. tauto.
    + split; [lia|]. split; [intros P; exfalso; revert P; now apply NP|].
      intros a f Ha. apply (A "PostForm" [lit_arg "name"]); auto. simpl in *. tauto.
  - exfalso. simpl in H. destruct g; inversion H as [|? ? n Hn Ho]; subst; destruct Hn.
Qed.

Lemma shop_calls g g' : calls (pr_funcs (prog_of shop [handle])) g g' -> g = 0 /\ g' = 1.
Proof.
  intros (c & f & f' & nf & ctx & Ho & Hc & Hp & Hd).
  destruct (shop_occurs g c Ho) as (Hg & Hpass & _).
  assert (ctx = "c"). { destruct g as [|[|g]]; [| |lia]; simpl in Hc; congruence. } subst ctx.
  destruct (Hpass Hp) as [-> ->]. simpl in Hd. injection Hd as _ <-. auto.
Qed.

Example C31_nontrivial :
  calls (pr_funcs (prog_of shop [handle])) 0 1 /\
  (forall g, Acc (fun h' h => calls (pr_funcs (prog_of shop [handle])) h h') g) /\
  (forall h f, fn_ctx (pr_funcs (prog_of shop [handle]) h) f <> OutOfFuel) /\
  (forall h c, occurs c (fn_body (pr_funcs (prog_of shop [handle]) h)) -> args_end c).
Proof.
  split.
  { exists (helper 1 (Some 1)), 0, 0, (Some 1), "c". split.
    - eapply oc_in; [right; left; reflexivity|constructor].
    - split; [reflexivity|]. split; [|reflexivity]. exists ctx_arg. split; [now left|reflexivity]. }
  split.
  { assert (A1 : forall g, g <> 0 -> Acc (fun h' h => calls (pr_funcs (prog_of shop [handle])) h h') g).
    { intros g Hg. constructor. intros h H. apply shop_calls in H. tauto. }
    intros g. constructor. intros h H. apply shop_calls in H. destruct H as [_ ->]. apply A1. lia. }
  split.
  - intros h f. destruct h as [|[|h]]; try discriminate. simpl. destruct h; discriminate.
  - intros h c H. now apply shop_occurs in H.
Qed.

(** ** C32: calls that cannot be analysed *)

(** Full claim refuted: a call whose argument cannot be evaluated, followed by anything, panics the
    whole run: q := c.Query(name()); return. *)
Theorem C32_no_crash_refuted : exists prog r f g op,
  handler_of prog r f g op /\ pr_customs prog = [] /\
  forall fuel comps, 2 <= fuel -> parseRoute fuel prog r comps = Panic.
Proof.
  exists (prog_of [gfunc "" [does (gin "JSON" [lit_arg "200"; item_arg]); does (gin "Query" [computed_arg]); leaf]] [handle]),
         items, 0, 0, (Some "Handle").
  split; [apply handled|]. split; [reflexivity|].
  intros fuel comps H. destruct fuel as [|[|fuel]]; try lia. vm_compute. reflexivity.
Qed.
Print Assumptions C32_no_crash_refuted.

(** More generally, a handler with a context method whose parameters cannot be evaluated, followed
    by anything and a final statement without calls, never gets its route back: not even with an
    error, whatever was recorded before and after. *)
Theorem C32_crash_refuted : forall prog r f g op ctx pre es regs last c ch mid name ops m stops regs' e,
  handler_of prog r f g op -> pr_customs prog = [] ->
  fn_ctx (pr_funcs prog g) f = Ok ctx -> ctx <> "" ->
  documents_all (pr_funcs prog) false ctx f pre es regs last ->
  ~ passes ctx c -> c_obj c f = OFunc name (Some the_context) ->
  method name = Some (ops, m, stops) -> eval_ops f (c_args c) 0 ops = (regs', Err e) ->
  fn_body (pr_funcs prog g) = Node None (pre ++ Node (Some c) ch :: mid ++ [Node None []]) ->
  exists N, forall fuel, N <= fuel -> forall comps x, parseRoute fuel prog r comps <> Ok x.
Proof. exact crash_route. Qed.
Print Assumptions C32_crash_refuted.

(** Calls that are not followed or not understood, other than context methods with arguments that
    cannot be evaluated, lose only themselves and their arguments: everything else is recorded. A
    helper that ends at such a call is cut there (in the same file).
    Missing from the full claim: see the refutations. *)
Theorem C32_others_kept_partial : forall prog r f g op ctx es regs last,
  handler_of prog r f g op -> pr_customs prog = [] ->
  fn_ctx (pr_funcs prog g) f = Ok ctx -> ctx <> "" ->
  documents (pr_funcs prog) false ctx f (fn_body (pr_funcs prog g)) es regs last ->
  exists N, forall fuel, N <= fuel -> forall comps,
  parseRoute fuel prog r comps = Ok (analysed (fn_doc (pr_funcs prog g)) op es r, register comps regs).
Proof. intros. eapply parseRoute_sound; eauto. Qed.
Print Assumptions C32_others_kept_partial.

(** Whatever fails, if the run of a route returns, nothing the route or the components had before is
    lost, reordered or changed (path parameters and comments are replaced). *)
Theorem C32_nothing_lost_partial : forall fuel prog r comps r' comps',
  pr_customs prog = [] -> parseRoute fuel prog r comps = Ok (r', comps') ->
  extends r r' /\ grows comps comps'.
Proof. exact parseRoute_extends. Qed.
Print Assumptions C32_nothing_lost_partial.

(** len(x) between two responses, and a helper that ends in a call of a function value. *)
Definition rough : list func :=
  [gfunc "" [does (helper 1 None); Node (Some (len_of computed_arg)) [leaf]; does (gin "JSON" [lit_arg "200"; item_arg])];
   gfunc "" [does (gin "GetHeader" [lit_arg "X-Key"]); Node (Some (len_of computed_arg)) []]].
Lemma rough_documents :
  documents (pr_funcs (prog_of rough [handle])) false "c" 0 (fn_body (pr_funcs (prog_of rough [handle]) 0))
    [EReqHeader (str_param "X-Key" false false);
     EReturn (mkRet 200 "application/json" (ParseResultToField (res "Item" (Some "app"))))] [item_result] false.
Proof.
  assert (NF : not_followed (pr_funcs (prog_of rough [handle])) "c" 0 (len_of computed_arg)).
  { right. split; [now apply not_passing|]. eexists. reflexivity. }
  apply doc_plain.
  apply (docs_cons _ _ "c" 0 _ _ _ [EReqHeader (str_param "X-Key" false false)] [] true
           [EReturn (mkRet 200 "application/json" (ParseResultToField (res "Item" (Some "app"))))] [item_result]).
  { eapply doc_helper_cut with (g := 1) (nf := None); try reflexivity; try discriminate.
    - exists ctx_arg. split; [now left|reflexivity].
    - apply doc_plain.
      apply (docs_cons _ _ "c" 0 _ _ _ [EReqHeader (str_param "X-Key" false false)] [] false [] [] true).
      + apply gin_documents; [reflexivity|].
        eapply (gc_read 0 "GetHeader" (fun n => EReqHeader (str_param n false false))); [simpl; tauto|reflexivity].
      + apply docs_one. apply doc_skip; [exact NF|discriminate]. }
  apply (docs_cons _ _ "c" 0 _ _ _ [] [] true
           [EReturn (mkRet 200 "application/json" (ParseResultToField (res "Item" (Some "app"))))] [item_result]).
  { apply doc_skip; [exact NF|discriminate]. }
  apply docs_one. apply gin_documents; [reflexivity|].
  eapply (gc_render 0 "JSON" "application/json"); [now left|reflexivity|reflexivity|reflexivity].
Qed.

Example C32_nontrivial :
  handler_of (prog_of rough [handle]) items 0 0 (Some "Handle") /\
  (exists es regs last, documents (pr_funcs (prog_of rough [handle])) false "c" 0
     (fn_body (pr_funcs (prog_of rough [handle]) 0)) es regs last /\ List.length es = 2) /\
  (exists r comps, parseRoute 5 (prog_of rough [handle]) items [] = Ok (r, comps) /\
     map p_name (rt_reqHeaders r) = ["X-Key"] /\ map r_status (rt_returns r) = [200%Z]).
Proof.
  split; [apply handled|]. split.
  - do 3 eexists. split; [apply rough_documents|reflexivity].
  - do 2 eexists. split; [vm_compute; reflexivity|]. repeat split.
Qed.

(** A helper of another package that ends at a call that is not followed leaves the analysis in the
    helper's file: the calls of the handler after it, fine by themselves, are lost. *)
Definition strayed : list func :=
  [gfunc "" [does (helper 1 (Some 1)); does (gin0 "JSON" [lit_arg "200"; item_arg])];
   gfunc "" [Node (Some (len_of computed_arg)) []]].
Theorem C32_wrong_file_refuted : exists prog r f g op c r' comps',
  handler_of prog r f g op /\ pr_customs prog = [] /\ occurs c (fn_body (pr_funcs prog g)) /\
  c_obj c f = OFunc "JSON" (Some the_context) /\ (exists ev regs, gin_call f "JSON" (c_args c) [ev] regs) /\
  (forall fuel, 3 <= fuel -> parseRoute fuel prog r [] = Ok (r', comps')) /\ rt_returns r' = [].
Proof.
  exists (prog_of strayed [handle]), items, 0, 0, (Some "Handle"), (gin0 "JSON" [lit_arg "200"; item_arg]).
  do 2 eexists. split; [apply handled|]. split; [reflexivity|]. split.
  { eapply oc_in; [right; left; reflexivity|constructor]. }
  split; [reflexivity|]. split.
  { do 2 eexists. eapply (gc_render 0 "JSON" "application/json"); [now left|reflexivity|reflexivity|reflexivity]. }
  split.
  - intros fuel H. destruct fuel as [|[|[|fuel]]]; try lia. vm_compute. reflexivity.
  - reflexivity.
Qed.
Print Assumptions C32_wrong_file_refuted.

(** ** C33: parameters by position *)
Theorem C33_positions : forall f args ops regs vs,
  eval_ops f args 0 ops = (regs, Ok vs) <-> ops_values f args 0 ops regs vs.
Proof. intros. apply eval_ops_ok. Qed.
Print Assumptions C33_positions.

(** The i-th value is the i-th operation on the i-th argument. *)
Theorem C33_ith : forall f args ops regs vs i op,
  eval_ops f args 0 ops = (regs, Ok vs) -> nth_error ops i = Some op ->
  List.length vs = List.length ops /\
  exists regs' v, nth_error vs i = Some v /\ op_value f args i op regs' v.
Proof.
  intros f args ops regs vs i op H Hi. apply eval_ops_ok in H.
  assert (G : forall k, ops_values f args k ops regs vs -> List.length vs = List.length ops /\
              exists regs' v, nth_error vs i = Some v /\ op_value f args (k + i) op regs' v).
  { clear H. revert i regs vs Hi. induction ops as [|o ops IH]; intros i regs vs Hi k H; [destruct i; discriminate|].
    inversion H; subst. match goal with H : ops_values _ _ (S k) _ _ _ |- _ => rename H into Hr end.
    destruct i as [|i].
    - simpl in Hi. injection Hi as ->. split.
      + simpl. f_equal. clear - Hr. revert k r2 vs0 Hr. induction ops as [|o ops IH]; intros k r2 vs0 Hr; inversion Hr; subst; simpl; auto.
        f_equal. eapply IH; eauto.
      + rewrite Nat.add_0_r. simpl. eauto.
    - simpl in Hi. destruct (IH i r2 vs0 Hi (S k) Hr) as [Hl Hv]. split; [simpl; congruence|].
      rewrite Nat.add_succ_r. exact Hv. }
  destruct (G 0 H) as [Hl Hv]. auto.
Qed.
Print Assumptions C33_ith.

(** A failure is the failure of the first operation that fails; what comes after is not evaluated. *)
Theorem C33_first_failure : forall f args ops regs e,
  eval_ops f args 0 ops = (regs, Err e) <->
  exists ops1 op ops2 r1 vs r2, ops = (ops1 ++ op :: ops2)%list /\ ops_values f args 0 ops1 r1 vs /\
    op_fails f args (List.length ops1) op r2 e /\ regs = (r1 ++ r2)%list.
Proof. intros. apply eval_ops_err. Qed.
Print Assumptions C33_first_failure.

(** The callback then has no influence, and no route is changed. *)
Theorem C33_callback_not_run : forall c ops m m' cur s regs e,
  eval_ops (ps_file s) (c_args c) 0 ops = (regs, Err e) ->
  build c ops m cur s = build c ops m' cur s /\
  exists s' l, build c ops m cur s = Ok (s', l) /\ ps_heap s' = ps_heap s /\ l_err l = Some e.
Proof.
  intros c ops m m' cur s regs e H. rewrite !(build_err _ _ _ _ _ _ _ H). split; auto.
  do 2 eexists. split; [reflexivity|]. split; reflexivity.
Qed.
Print Assumptions C33_callback_not_run.

Example C33_nontrivial :
  eval_ops 0 [lit_arg "201"; lit_arg "text"; item_arg] 0 [PStatus; PIgnored; PExpr]
    = ([item_result], Ok [AInt 201; ANil; AResult (res "Item" (Some "app"))]) /\
  eval_ops 0 [item_arg; lit_arg "x"; item_arg] 0 [PExpr; PStatus; PExpr] = ([item_result], Err "strconv").
Proof. split; reflexivity. Qed.

(** ** C56: custom functions that decline *)

(** Refuted: a custom function that declares a parameter, looks at nothing and declines, shifts the
    parameters of the built-in method that is read next: c.JSON(200, item) is lost and the run
    panics. *)
Definition nosy : customFunc := fun _ _ _ _ => CuNone [PIgnored].
Definition with_customs (cs : list customFunc) (p : program) : program :=
  mkProg (pr_funcs p) (pr_package p) cs (pr_lowerCamel p).
Theorem C56_declining_refuted : exists prog r r' comps',
  (forall fuel, 3 <= fuel -> parseRoute fuel prog r [] = Ok (r', comps') /\ rt_returns r' <> []) /\
  forall fuel, 3 <= fuel -> parseRoute fuel (with_customs [nosy] prog) r [] = Panic.
Proof.
  exists (prog_of shop [handle]), items. do 2 eexists. split.
  - intros fuel H. destruct fuel as [|[|[|fuel]]]; try lia. split; [vm_compute; reflexivity|discriminate].
  - intros fuel H. destruct fuel as [|[|[|fuel]]]; try lia. vm_compute. reflexivity.
Qed.
Print Assumptions C56_declining_refuted.

(** Declining without declaring parameters is as if the function were not there. *)
Theorem C56_declining_partial : forall fuel funcs cs g cur f level s,
  Forall (fun cu => forall ctx c fl r, cu ctx c fl r = CuNone []) cs ->
  parseFunction fuel funcs cs g cur f level s = parseFunction fuel funcs [] g cur f level s.
Proof. exact function_declines. Qed.
Print Assumptions C56_declining_partial.
Example C56_nontrivial : Forall (fun cu : customFunc => forall ctx c fl r, cu ctx c fl r = CuNone [])
  [(fun _ c _ _ => match c_args c with [] => CuNone [] | _ => CuNone [] end)].
Proof. repeat constructor. intros ctx c fl r. destruct (c_args c); reflexivity. Qed.

(** ** C57: each route is analysed once, on its own *)

(** With distinct (path, method) pairs, the routes before the first failing one are replaced by
    their analysis, in place, and the others stay as they were. *)
Theorem C57_each_route_partial : forall fuel prog routes comps routes' comps' e,
  pr_customs prog = [] -> NoDup (map (fun r => (rt_path r, rt_method r)) routes) ->
  GinParseRoutes fuel prog routes comps = Ok (routes', comps', e) ->
  exists before rest out, routes = (before ++ rest)%list /\ routes' = (out ++ rest)%list /\
    Forall2 (fun r r' => same_identity r r' /\ exists c c', parseRoute fuel prog r c = Ok (r', c')) before out /\
    (e = None <-> rest = []).
Proof.
  intros fuel prog routes comps routes' comps' e Hc ND H.
  destruct (parse_from_each fuel prog Hc routes [] comps routes' comps' e ND H)
    as (out & rest & -> & (bef & -> & F) & H1 & H2).
  exists bef, rest, out. split; auto. split; auto. split.
  - clear - F Hc. induction F as [|r r' l l' (c & c' & E) _ IH]; constructor; auto. split; eauto.
    now apply parseRoute_extends in E as [[Hi _] _].
  - split; auto. intros ->. destruct e; auto. exfalso. now apply H2.
Qed.
Print Assumptions C57_each_route_partial.

Definition items2 : Route := mkRoute "app.Handle" "h.go" 10 "POST" "/items/:id" [] [] [] [] "" "" [] [].
Example C57_nontrivial :
  NoDup (map (fun r => (rt_path r, rt_method r)) [items; items2]) /\
  exists routes comps, GinParseRoutes 5 (prog_of shop [handle]) [items; items2] [] = Ok (routes, comps, None) /\
    map (fun r => List.length (rt_queryParams r)) routes = [1; 1].
Proof.
  split.
  - repeat constructor; simpl; intuition congruence.
  - do 2 eexists. split; vm_compute; reflexivity.
Qed.

(** Without that hypothesis it is refuted: of two routes with the same path and method (two routers
    in one service) the first is overwritten by the second and the second is never analysed. *)
Definition items3 : Route := mkRoute "app.Handle" "h.go" 10 "GET" "/items/:id" [] [] [] [] "other" "" [] [].
Theorem C57_each_route_refuted : exists prog routes routes' comps',
  (forall fuel, 3 <= fuel -> GinParseRoutes fuel prog routes [] = Ok (routes', comps', None)) /\
  exists i r, nth_error routes i = Some r /\ nth_error routes' i = Some r /\
    forall fuel c r' c', 3 <= fuel -> parseRoute fuel prog r c = Ok (r', c') -> r' <> r.
Proof.
  exists (prog_of shop [handle]), [items; items3]. do 2 eexists. split.
  - intros fuel H. destruct fuel as [|[|[|fuel]]]; try lia. vm_compute. reflexivity.
  - exists 1, items3. split; [reflexivity|]. split; [reflexivity|].
    intros fuel c r' c' H E. destruct fuel as [|[|[|fuel]]]; try lia.
    assert (Hq : parseRoute (S (S (S fuel))) (prog_of shop [handle]) items3 c =
      Ok (analysed "Lists the items." (Some "Handle") shop_events items3, register c [item_result])) by (vm_compute; reflexivity).
    rewrite Hq in E. injection E as <- _. intros Hx.
    apply (f_equal (fun x => List.length (rt_queryParams x))) in Hx. vm_compute in Hx. discriminate.
Qed.
Print Assumptions C57_each_route_refuted.

(** ** C58: an inline handler is documented by its own calls only *)

(** Refuted: two literals starting on one line are both recorded in each of their routes. *)
Definition twins : list func :=
  [gfunc "" [];
   gfunc "" [does (gin "Query" [lit_arg "a"]); does (gin "Status" [lit_arg "200"])];
   gfunc "" [does (gin "Query" [lit_arg "b"]); does (gin "Status" [lit_arg "404"])]].
Definition setup : fdecl := mkFD "Setup" (fun _ => 5%Z) 0 [Lit (fun _ => 10%Z) 1 []; Lit (fun _ => 10%Z) 2 []].
Definition first_route : Route := mkRoute "app.Setup.func1" "h.go" 10 "GET" "/a" [] [] [] [] "" "" [] [].
Theorem C58_inline_refuted : exists prog r r' comps',
  fd_lits setup = [Lit (fun _ => rt_line r) 1 []; Lit (fun _ => rt_line r) 2 []] /\
  pr_package prog "app" = Some [("/src/app/h.go", 0, [setup])] /\
  rt_handler r = runtime_name "app" ["Setup"; "func1"] /\
  (forall fuel, 2 <= fuel -> parseRoute fuel prog r [] = Ok (r', comps')) /\
  map p_name (rt_queryParams r') = ["a"; "b"] /\ map r_status (rt_returns r') = [200%Z; 404%Z].
Proof.
  exists (prog_of twins [setup]), first_route. do 2 eexists. split; [reflexivity|]. split; [reflexivity|].
  split; [reflexivity|]. split.
  - intros fuel H. destruct fuel as [|[|fuel]]; try lia. vm_compute. reflexivity.
  - split; reflexivity.
Qed.
Print Assumptions C58_inline_refuted.

(** A literal alone on its line is documented by its calls alone. *)
Theorem C58_inline_partial : forall prog r f g ctx es regs last,
  handler_of prog r f g None -> pr_customs prog = [] ->
  fn_ctx (pr_funcs prog g) f = Ok ctx -> ctx <> "" ->
  documents (pr_funcs prog) true ctx f (fn_body (pr_funcs prog g)) es regs last ->
  exists N, forall fuel, N <= fuel -> forall comps, exists r',
  parseRoute fuel prog r comps = Ok (r', register comps regs) /\
  rt_queryParams r' = (rt_queryParams r ++ queries_of es)%list /\
  rt_body r' = (rt_body r ++ bodies_of es)%list /\
  rt_returns r' = AddReturnType (rt_returns r) (returns_of es) /\
  rt_reqHeaders r' = (rt_reqHeaders r ++ reqHeaders_of es)%list /\
  rt_respHeaders r' = (rt_respHeaders r ++ respHeaders_of es)%list /\
  rt_pathParams r' = (ExtractParamsFromPath (rt_path r) ++ paths_of es)%list /\
  rt_operationId r' = rt_operationId r.
Proof.
  intros prog r f g ctx es regs last Hh Hc Hx Hne D.
  destruct (parseRoute_sound prog r f g None true ctx es regs last Hh Hc Hx Hne D) as (N & H).
  exists N. intros fuel Hf comps. eexists. split; [now apply H|].
  unfold analysed, comment_of. destruct (String.eqb _ _); repeat split.
Qed.
Print Assumptions C58_inline_partial.

Definition lone : fdecl := mkFD "Setup" (fun _ => 5%Z) 0 [Lit (fun _ => 9%Z) 2 [Lit (fun _ => 10%Z) 1 []]; Lit (fun _ => 11%Z) 2 []].
Example C58_nontrivial : handler_of (prog_of twins [lone]) first_route 0 1 None /\
  documents (pr_funcs (prog_of twins [lone])) true "c" 0 (fn_body (pr_funcs (prog_of twins [lone]) 1))
    [EQuery (str_param "a" false false); EReturn (mkRet 200 "" (field_of_type "nil"))] [] false.
Proof.
  split.
  - exists "app", "Setup", ["func1"], [("/src/app/h.go", 0, [lone])], [], "/src/app/h.go", [], lone, [], [].
    split; [reflexivity|]. split; [reflexivity|]. split; [now repeat constructor|].
    split; [now repeat constructor|].
    split; [reflexivity|]. split; [reflexivity|]. split; [reflexivity|]. split; [intros x []|].
    split; [reflexivity|]. split; [intros d' [[]|[]]|]. right. repeat split. discriminate.
  - apply doc_plain.
    apply (docs_cons _ _ "c" 0 _ _ _ [EQuery (str_param "a" false false)] [] false
             [EReturn (mkRet 200 "" (field_of_type "nil"))] []).
    + apply gin_documents; [reflexivity|].
      eapply (gc_read 0 "Query" (fun n => EQuery (str_param n false false))); [now left|reflexivity].
    + apply docs_one. apply gin_documents; [reflexivity|].
      eapply (gc_answer 0 "Status" "nil" ""); [simpl; tauto|reflexivity|reflexivity].
Qed.

(** ** C10: analysing again *)

(** Full claim refuted: a second analysis doubles the query parameters. *)
Theorem C10_again_refuted : exists prog r f g op r1 c1 r2 c2,
  handler_of prog r f g op /\
  (forall fuel, 3 <= fuel -> parseRoute fuel prog r [] = Ok (r1, c1) /\ parseRoute fuel prog r1 c1 = Ok (r2, c2)) /\
  List.length (rt_queryParams r1) = 1 /\ List.length (rt_queryParams r2) = 2 /\ r2 <> r1.
Proof.
  exists (prog_of shop [handle]), items, 0, 0, (Some "Handle"). do 4 eexists.
  split; [apply handled|]. split.
  { intros fuel H. destruct fuel as [|[|[|fuel]]]; try lia. split; [vm_compute; reflexivity|]. vm_compute. reflexivity. }
  split; [reflexivity|]. split; [reflexivity|]. discriminate.
Qed.
Print Assumptions C10_again_refuted.

(** Precisely: a second analysis appends the same query parameters, bodies and headers again; the
    path parameters, the comment, the operation id and the components are as after the first. *)
Theorem C10_doubling_partial : forall prog r f g op ctx es regs last,
  handler_of prog r f g op -> pr_customs prog = [] ->
  fn_ctx (pr_funcs prog g) f = Ok ctx -> ctx <> "" ->
  documents (pr_funcs prog) false ctx f (fn_body (pr_funcs prog g)) es regs last ->
  exists N, forall fuel, N <= fuel -> forall comps, exists r1 c1 r2,
  parseRoute fuel prog r comps = Ok (r1, c1) /\ parseRoute fuel prog r1 c1 = Ok (r2, c1) /\
  rt_queryParams r2 = (rt_queryParams r1 ++ queries_of es)%list /\
  rt_body r2 = (rt_body r1 ++ bodies_of es)%list /\
  rt_reqHeaders r2 = (rt_reqHeaders r1 ++ reqHeaders_of es)%list /\
  rt_respHeaders r2 = (rt_respHeaders r1 ++ respHeaders_of es)%list /\
  rt_returns r2 = AddReturnType (rt_returns r1) (returns_of es) /\
  rt_pathParams r2 = rt_pathParams r1 /\ rt_doc r2 = rt_doc r1 /\ rt_operationId r2 = rt_operationId r1 /\
  same_identity r1 r2.
Proof.
  intros prog r f g op ctx es regs last Hh Hc Hx Hne D.
  destruct (parseRoute_sound prog r f g op false ctx es regs last Hh Hc Hx Hne D) as (N1 & H1).
  assert (Hh' : handler_of prog (analysed (fn_doc (pr_funcs prog g)) op es r) f g op)
    by (eapply handler_of_identity; [apply analysed_identity|exact Hh]).
  destruct (parseRoute_sound prog _ f g op false ctx es regs last Hh' Hc Hx Hne D) as (N2 & H2).
  exists (max N1 N2). intros fuel Hf comps. do 3 eexists.
  split; [apply H1; lia|]. split; [rewrite H2 by lia; now rewrite register_again|].
  unfold analysed, comment_of. destruct (String.eqb _ _), op; repeat split.
Qed.
Print Assumptions C10_doubling_partial.

(** A handler that only answers, always with the same type, status and content type, is stable. *)
Theorem C10_again_partial : forall prog r f g op ctx es regs last x,
  handler_of prog r f g op -> pr_customs prog = [] ->
  fn_ctx (pr_funcs prog g) f = Ok ctx -> ctx <> "" ->
  documents (pr_funcs prog) false ctx f (fn_body (pr_funcs prog g)) es regs last ->
  (forall e, In e es -> exists y, e = EReturn y /\ ret_key y = ret_key x) -> rt_returns r = [] ->
  exists N, forall fuel, N <= fuel -> forall comps, exists r1 c1,
  parseRoute fuel prog r comps = Ok (r1, c1) /\ parseRoute fuel prog r1 c1 = Ok (r1, c1).
Proof.
  intros prog r f g op ctx es regs last x Hh Hc Hx Hne D Hes Hr.
  destruct (parseRoute_sound prog r f g op false ctx es regs last Hh Hc Hx Hne D) as (N1 & H1).
  assert (Hh' : handler_of prog (analysed (fn_doc (pr_funcs prog g)) op es r) f g op)
    by (eapply handler_of_identity; [apply analysed_identity|exact Hh]).
  destruct (parseRoute_sound prog _ f g op false ctx es regs last Hh' Hc Hx Hne D) as (N2 & H2).
  exists (max N1 N2). intros fuel Hf comps. do 2 eexists.
  split; [apply H1; lia|]. rewrite H2 by lia. rewrite register_again. f_equal. f_equal.
  assert (K : paths_of es = [] /\ queries_of es = [] /\ bodies_of es = [] /\ reqHeaders_of es = [] /\
              respHeaders_of es = [] /\ Forall (fun y => ret_key y = ret_key x) (returns_of es)).
  { clear - Hes. induction es as [|e es IH]; [repeat split; constructor|].
    destruct (Hes e (or_introl eq_refl)) as (y & -> & Hy).
    destruct IH as (A1 & A2 & A3 & A4 & A5 & A6); [intros e' He'; apply Hes; now right|].
    repeat split; simpl; auto. }
  destruct K as (A1 & A2 & A3 & A4 & A5 & A6).
  assert (Ret : AddReturnType (AddReturnType [] (returns_of es)) (returns_of es) = AddReturnType [] (returns_of es)).
  { destruct (returns_of es) as [|y l]; [reflexivity|]. inversion A6 as [|? ? Hy Hl]; subst.
    assert (Fl : Forall (fun z => ret_key z = ret_key y) l).
    { eapply Forall_impl; [|exact Hl]. simpl. intros z Hz. congruence. }
    change (AddReturnType [] (y :: l)) with (AddReturnType [y] l).
    rewrite (AddReturnType_same y l Fl).
    change (AddReturnType [y] (y :: l)) with (AddReturnType (AddReturnType [y] [y]) l).
    rewrite (AddReturnType_same y [y]) by (repeat constructor). now apply AddReturnType_same. }
  destruct r as [h0 fi li me pa pp qp bo re do0 oi rh sh]. simpl in Hr. subst re.
  unfold analysed, comment_of, recorded.
  destruct (String.eqb (FormatDoc (fn_doc (pr_funcs prog g))) ""), op; simpl;
    rewrite A1, A2, A3, A4, A5, Ret, ?app_nil_r; reflexivity.
Qed.
Print Assumptions C10_again_partial.

Example C10_nontrivial :
  let prog := prog_of [gfunc "One." [does (gin "JSON" [lit_arg "200"; item_arg])]] [handle] in
  handler_of prog items 0 0 (Some "Handle") /\
  documents (pr_funcs prog) false "c" 0 (fn_body (pr_funcs prog 0))
    [EReturn (mkRet 200 "application/json" (ParseResultToField (res "Item" (Some "app"))))] [item_result] false.
Proof.
  split; [apply handled|]. apply doc_plain. apply docs_one. apply gin_documents; [reflexivity|].
  eapply (gc_render 0 "JSON" "application/json"); [now left|reflexivity|reflexivity|reflexivity].
Qed.
