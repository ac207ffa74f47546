(** Property theorems about the resolution of names, contexts and types: C66, C67, C68, C70. *)
From Coq Require Import List String Ascii Bool ZArith Arith Lia.
From Verif Require Import BaseStr M_Types M_Docs M_Paths M_Tags M_Collect S_Collect M_TypeTrav S_TypeTrav M_Value S_Value M_Parse S_Parse P_Parse
  P_Parse2 P_Parse3 P_Parse4 M_Resolve S_Resolve P_Resolve.
Import ListNotations.
Local Open Scope string_scope.

(** ** An example

    package app, file 0:
      // Lists the items.
      func List(c *gin.Context) {
        page := c.Query("page")
        checks.Header(c)
        n := len(items)
        c.JSON(http.StatusOK, &Item{})
      }
    package app/checks, file 1:
      func Header(strict bool, ctx *gin.Context) { ctx.Header(total, "1") }    with var total = "X-Total"  *)
Definition ginPath : string := "github.com/gin-gonic/gin".
Definition quoted (s : string) : string := String (ascii_of_nat 34) (s ++ String (ascii_of_nat 34) "").
Definition ctx_type : gtype := GPointer (GNamed 0).
Definition str_type : gtype := GBasic "string" KString.
Definition demo_types : TypeEnv :=
  mkTE (fun i => nth i [Some ginPath; Some "app"; None; Some "app"] None)
       (fun i => nth i ["Context"; "Item"; "error"; "Ref"] "")
       (fun i => nth i [GStruct []; GStruct [mkGF "ID" true false "" str_type (fun _ => None)]; GInterface; GStruct []] GOther)
       (fun _ => "") (fun _ => true) (fun _ => []) (fun _ => false).
Definition demo_objects : list tobj :=
  [TVar ctx_type; TFunc "Query" (Some ctx_type) [str_type]; TPkg 1; TFunc "Header" None []; TPkg 2;
   TConst (CInt 200) (GBasic "int" KInt); TType (GNamed 1); TFunc "JSON" (Some ctx_type) []; TBuiltin "len";
   TVar (GSlice (GNamed 1)); TFunc "Header" (Some ctx_type) []; TVar str_type; TVar (GBasic "int" KInt); TVar str_type].
Definition id_ (id : nat) (name : string) : ex := EIdent id name None.
Definition def_ (id : nat) (name : string) : ex := EIdent id name (Some (Some DkOther)).
Definition list_body : ex :=
  EOther
    [EOther [def_ 13 "page"; ECall (ESel (def_ 0 "c") 1 "Query") [ELit 20 true (quoted "page")]];
     EOther [ECall (ESel (id_ 2 "checks") 3 "Header") [def_ 0 "c"]];
     EOther [def_ 12 "n"; ECall (id_ 8 "len") [id_ 9 "items"]];
     EOther [ECall (ESel (def_ 0 "c") 7 "JSON")
                   [ESel (id_ 4 "http") 5 "StatusOK"; EUnary UAddr (EComposite (Some (id_ 6 "Item")) [])]]].
Definition header_body : ex :=
  EOther [EOther [ECall (ESel (def_ 0 "ctx") 10 "Header") [id_ 11 "total"; ELit 21 true (quoted "1")]]].
Definition demo_funcs : list fdef :=
  [mkFn (Text ["// Lists the items."]) [mkPar ["c"] 30] list_body; mkFn "" [mkPar ["strict"] 31; mkPar ["ctx"] 30] header_body].
Definition known_types (id : nat) : option gtype :=
  match id with
  | 30 => Some ctx_type | 31 => Some (GBasic "bool" KBool) | 32 => Some (GPointer (GNamed 2)) | 20 | 21 => Some str_type
  | _ => None
  end.
Definition demo_pkg (path : string) (scope : string -> option file) (defs : list (string * option nat)) : pinfo :=
  mkPkg path scope (fun id => if Nat.ltb id (List.length demo_objects) then Some id else None) known_types defs.
Definition one_of (name : string) {A} (x : A) (s : string) : option A := if String.eqb s name then Some x else None.
Definition demo : code :=
  mkCode
    (fun f => match f with
              | 0 => mkFile 0 [("", 2); ("", 1); ("", 3)] (one_of "List" (Some (DkFunc 0)))
              | _ => mkFile 1 [("", 3)] (one_of "Header" (Some (DkFunc 1)))
              end)
    (fun p => match p with
              | 0 => demo_pkg "app" (one_of "List" 0) []
              | 1 => demo_pkg "app/checks" (one_of "Header" 1) []
              | 2 => demo_pkg "net/http" (fun _ => None) [("StatusOK", Some 5)]
              | _ => demo_pkg ginPath (fun _ => None) []
              end)
    (fun o => nth o demo_objects (TVar GOther))
    (fun o => match o with 11 => Some (NSpec [def_ 11 "total"] [ELit 22 true (quoted "X-Total")]) | _ => None end)
    (fun o => match o with 3 => 1 | 5 => 2 | 1 | 7 | 10 => 3 | _ => 0 end)
    demo_types (fun g => nth g demo_funcs (mkFn "" [] (EOther []))).
Definition demo_home (o : nat) : option (file * string * funcref) := if Nat.eqb o 3 then Some (1, "Header", 1) else None.

Lemma demo_scopes : scopes_agree demo demo_home.
Proof.
  intros o f name g H _. unfold demo_home in H. destruct (Nat.eqb_spec o 3) as [->|]; [|discriminate].
  injection H as <- <- <-. repeat split.
Qed.
Lemma demo_pointers : no_named_pointers demo.
Proof. intros id t. cbn. destruct id as [|[|[|[|[|id]]]]]; discriminate. Qed.
Lemma demo_context_type : gin_context demo ctx_type.
Proof. exists 0. repeat split. Qed.

(** ** C66: a call is followed into the function it names *)

(** Full statement: a call that passes the context is followed into the function that is called.  Proved for
    functions of a package called by their name, or by their name and that of an imported package which is
    the only import that the name, or the last element of its path, could be taken for. *)
Theorem C66_followed_partial : forall co home f e f' g,
  scopes_agree co home -> calls_function co home f e f' g -> loads co (pkg_of co f') = true ->
  exists nf, FindDeclarationForNode co f e = DFound nf (Some g) /\ landed nf f = f'.
Proof. intros co home f e f' g. apply followed. Qed.
Print Assumptions C66_followed_partial.

Lemma demo_import : plain_import demo 0 "checks" 1.
Proof.
  split.
  - exists ("", 1). split; [cbn; auto|]. split; [reflexivity|]. right. vm_compute. reflexivity.
  - intros im [<-|[<-|[<-|[]]]] H; [|reflexivity|]; exfalso; vm_compute in H; destruct H; discriminate.
Qed.
Lemma demo_helper : calls_function demo demo_home 0 (ESel (id_ 2 "checks") 3 "Header") 1 1.
Proof.
  apply (cf_sel demo demo_home 0 2 "checks" None 2 1 3 "Header" 3 1 1); try reflexivity.
  - exact demo_import.
  - exists "Header", []. reflexivity.
Qed.
Example C66_nontrivial :
  scopes_agree demo demo_home /\ calls_function demo demo_home 0 (ESel (id_ 2 "checks") 3 "Header") 1 1 /\
  calls_function demo demo_home 1 (EIdent 3 "Header" (Some (Some (DkFunc 1)))) 1 1 /\
  calls_function demo demo_home 1 (id_ 3 "Header") 1 1 /\
  loads demo (pkg_of demo 1) = true.
Proof.
  assert (T : top_level demo 3) by (exists "Header", []; reflexivity).
  split; [exact demo_scopes|]. split; [exact demo_helper|]. split; [|split; [|reflexivity]].
  - apply (cf_ident demo demo_home 1 3 "Header" (Some (Some (DkFunc 1))) 3 1 "Header" 1); try reflexivity; auto.
    intros f' n g H. injection H as <- <- <-. split; [reflexivity|]. left. auto.
  - apply (cf_ident demo demo_home 1 3 "Header" None 3 1 "Header" 1); try reflexivity; auto.
    intros f' n g H. injection H as <- <- <-. split; [reflexivity|]. right. auto.
Qed.

(** A method, or any function behind something that is not called like an import, is never followed ... *)
Theorem C66_methods_not_followed : forall co f x id name,
  (forall idx n obj, x = EIdent idx n obj ->
     forall im, In im (fi_imports (co_file co f)) -> fst im <> n /\ after_last "/" (path_of co (snd im)) <> n) ->
  FindDeclarationForNode co f (ESel x id name) = DErr.
Proof.
  intros co f x id name H. destruct x; try reflexivity. cbn. unfold FindImport.
  destruct (find _ _) as [im|] eqn:E; [|reflexivity]. apply find_some in E as [Hin Hm].
  apply import_matches_iff in Hm. destruct (H _ _ _ eq_refl im Hin). tauto.
Qed.
Print Assumptions C66_methods_not_followed.
Theorem C66_method_refuted : exists co f e o name recv,
  denotes co f e o /\ co_obj co o = TFunc name (Some recv) [] /\ FindDeclarationForNode co f e = DErr.
Proof.
  exists demo, 0, (ESel (def_ 11 "h") 10 "Header"), 10, "Header", ctx_type. split; [constructor; reflexivity|]. split; reflexivity.
Qed.
Print Assumptions C66_method_refuted.

(** ... nor is a function value, a function literal, or a generic function with its type arguments. *)
Theorem C66_values_not_followed : forall co f e,
  (forall id name obj, e <> EIdent id name obj) -> (forall x id name, e <> ESel x id name) -> (forall op x, e <> EUnary op x) ->
  FindDeclarationForNode co f e = DErr.
Proof.
  intros co f e H1 H2 H3. destruct e; try reflexivity; exfalso; [eapply H1|eapply H2|eapply H3]; reflexivity.
Qed.
Print Assumptions C66_values_not_followed.

(** With imports u ".../user" and user ".../account", a call of user.Header is followed into the package that is
    not called user in the file: [wrong] is that of app/checks, imported as ch. *)
Definition two_imports (imports : list (string * nat)) : code :=
  mkCode
    (fun f => match f with
              | 0 => mkFile 0 imports (fun _ => None)
              | 1 => mkFile 1 [] (one_of "Header" (Some (DkFunc 1)))
              | _ => mkFile 2 [] (one_of "Header" (Some (DkFunc 2)))
              end)
    (fun p => match p with
              | 0 => demo_pkg "app" (fun _ => None) []
              | 1 => demo_pkg "app/checks" (one_of "Header" 1) []
              | _ => demo_pkg "app/account" (one_of "Header" 2) []
              end)
    (fun o => match o with 2 => TPkg 2 | 3 => TFunc "Header" None [] | _ => TVar GOther end)
    (fun _ => None) (fun o => match o with 3 => 2 | _ => 0 end) demo_types (fun _ => mkFn "" [] (EOther [])).
Definition two_home (o : nat) : option (file * string * funcref) := if Nat.eqb o 3 then Some (2, "Header", 2) else None.
Lemma two_scopes imports : scopes_agree (two_imports imports) two_home.
Proof.
  intros o f name g H _. unfold two_home in H. destruct (Nat.eqb_spec o 3) as [->|]; [|discriminate].
  injection H as <- <- <-. repeat split.
Qed.
Theorem C66_import_refuted : exists co home f idx x id name p o f' g,
  scopes_agree co home /\ object_at co f idx p /\ (exists k, co_obj co p = TPkg k /\ In (x, k) (fi_imports (co_file co f)) /\ co_home co o = k) /\
  object_at co f id o /\ top_level co o /\ home o = Some (f', name, g) /\
  exists nf g', FindDeclarationForNode co f (ESel (EIdent idx x None) id name) = DFound nf (Some g') /\ g' <> g.
Proof.
  exists (two_imports [("ch", 1); ("checks", 2)]), two_home, 0, 2, "checks", 3, "Header", 2, 3, 2, 2.
  split; [apply two_scopes|]. split; [reflexivity|]. split; [exists 2; split; [reflexivity|]; split; [right; left; reflexivity|reflexivity]|].
  split; [reflexivity|]. split; [exists "Header", []; reflexivity|]. split; [reflexivity|].
  exists (Some 1), 1. split; [vm_compute; reflexivity|discriminate].
Qed.
Print Assumptions C66_import_refuted.
(** A variable called like the last element of an import: a call of its method is followed into the
    function of that name of the package. *)
Theorem C66_variable_refuted : exists co f e x o name recv nf g,
  e = ESel x 10 name /\ denotes co f x 0 /\ co_obj co 0 = TVar recv /\
  denotes co f e o /\ co_obj co o = TFunc name (Some recv) [] /\
  FindDeclarationForNode co f e = DFound nf (Some g).
Proof.
  exists demo, 0, (ESel (def_ 0 "checks") 10 "Header"), (def_ 0 "checks"), 10, "Header", ctx_type, (Some 1), 1.
  split; [reflexivity|]. split; [constructor; reflexivity|]. split; [reflexivity|]. split; [constructor; reflexivity|].
  split; vm_compute; reflexivity.
Qed.
Print Assumptions C66_variable_refuted.
(** A package the name of which is not the last element of its path (a major version, a dot), imported
    without a local name, is not found. *)
Theorem C66_version_refuted : exists co f x k, In ("", k) (fi_imports (co_file co f)) /\ co_obj co 2 = TPkg k /\
  object_at co f 2 2 /\ path_of co k = "app/account" /\
  forall name, FindDeclarationForNode co f (ESel (EIdent 2 x None) 3 name) = DErr.
Proof.
  exists (two_imports [("", 2)]), 0, "accounts", 2. split; [now left|]. split; [reflexivity|]. split; [reflexivity|]. split; [reflexivity|].
  intros name. apply C66_methods_not_followed. intros idx n obj E im [<-|[]]. injection E as _ <- _. split; vm_compute; discriminate.
Qed.
Print Assumptions C66_version_refuted.

(** ** C67: the context of a function is found *)

(** Full statement: for a function with a parameter of type *gin.Context, the name of the first such parameter is
    found.  Proved if it has a name and no parameter is a pointer to a type without a package. *)
Theorem C67_found_partial : forall co f g name,
  first_context co f (fs_params (co_func co g)) name -> (forall a, In a (fs_params (co_func co g)) -> sane_param co f a) ->
  context_name co f g = Ok name.
Proof. intros co f g name. apply context_named. Qed.
Print Assumptions C67_found_partial.
(** No other function is taken for one with a context. *)
Theorem C67_none : forall co f g,
  (forall a, In a (fs_params (co_func co g)) -> ~ is_context co f a /\ sane_param co f a) -> context_name co f g = Ok "".
Proof. intros co f g. apply no_context. Qed.
Print Assumptions C67_none.

Lemma demo_sane f a : In (pa_type a) [30; 31] -> sane_param demo f a.
Proof.
  intros H. split.
  - intros (id & Hp & Hn). unfold param_type in Hp. destruct f as [|f]; cbn in Hp; destruct H as [E|[E|[]]]; rewrite <- E in Hp;
      try discriminate; injection Hp as <-; discriminate.
  - intros k Hp. unfold param_type in Hp. destruct f as [|f]; cbn in Hp; destruct H as [E|[E|[]]]; rewrite <- E in Hp; discriminate.
Qed.
Lemma demo_first g name : g < 2 -> name = nth g ["c"; "ctx"] "" -> first_context demo g (fs_params (co_func demo g)) name.
Proof.
  intros H ->. destruct g as [|[|g]]; [| |lia].
  - exists [], (mkPar ["c"] 30), [], []. split; [reflexivity|]. split; [exists ctx_type; split; [reflexivity|exact demo_context_type]|].
    split; [reflexivity|]. intros b [].
  - exists [mkPar ["strict"] 31], (mkPar ["ctx"] 30), [], []. split; [reflexivity|].
    split; [exists ctx_type; split; [reflexivity|exact demo_context_type]|]. split; [reflexivity|].
    intros b [<-|[]] (t & Ht & id & E & _). vm_compute in Ht. injection Ht as <-. discriminate.
Qed.
Lemma demo_all_sane g a : g < 2 -> In a (fs_params (co_func demo g)) -> sane_param demo g a.
Proof.
  intros H Ha. apply demo_sane. destruct g as [|[|g]]; [| |lia]; cbn in Ha.
  - destruct Ha as [<-|[]]. now left.
  - destruct Ha as [<-|[<-|[]]]; [right; now left|now left].
Qed.
Example C67_nontrivial :
  first_context demo 1 (fs_params (co_func demo 1)) "ctx" /\ (forall a, In a (fs_params (co_func demo 1)) -> sane_param demo 1 a) /\
  (forall a, In a [mkPar ["strict"] 31] -> ~ is_context demo 1 a /\ sane_param demo 1 a).
Proof.
  split; [apply demo_first; auto|]. split; [intros a; apply demo_all_sane; auto|].
  intros a [<-|[]]. split; [|apply demo_sane; right; now left]. intros (t & Ht & id & E & _). vm_compute in Ht. injection Ht as <-. discriminate.
Qed.

(** A context without a name, and a pointer to error before the context, end the analysis with a panic. *)
Definition with_params (ps : list param) : code :=
  mkCode (co_file demo) (co_pkg demo) (co_obj demo) (co_at demo) (co_home demo) demo_types (fun _ => mkFn "" ps (EOther [])).
Theorem C67_unnamed : forall co f g pre a post,
  fs_params (co_func co g) = (pre ++ a :: post)%list -> is_context co f a -> pa_names a = [] ->
  (forall b, In b pre -> ~ is_context co f b /\ sane_param co f b) -> context_name co f g = Panic.
Proof.
  intros co f g pre a post E Hc Hn Hpre. unfold context_name. rewrite E. clear E. induction pre as [|b pre IH]; cbn [app].
  - rewrite (context_step co f a post Hc), Hn. reflexivity.
  - destruct (Hpre b (or_introl eq_refl)). rewrite other_step; auto. apply IH. intros; apply Hpre; now right.
Qed.
Print Assumptions C67_unnamed.
Theorem C67_unnamed_refuted : exists co f g a, In a (fs_params (co_func co g)) /\ is_context co f a /\ context_name co f g = Panic.
Proof.
  exists (with_params [mkPar [] 30]), 0, 0, (mkPar [] 30). split; [now left|].
  split; [exists ctx_type; split; [reflexivity|exact demo_context_type]|reflexivity].
Qed.
Print Assumptions C67_unnamed_refuted.
Theorem C67_error_refuted : exists co f g name, first_context co f (fs_params (co_func co g)) name /\ context_name co f g = Panic.
Proof.
  exists (with_params [mkPar ["e"] 32; mkPar ["c"] 30]), 0, 0, "c". split; [|reflexivity].
  exists [mkPar ["e"] 32], (mkPar ["c"] 30), [], []. split; [reflexivity|].
  split; [exists ctx_type; split; [reflexivity|exact demo_context_type]|]. split; [reflexivity|].
  intros b [<-|[]] (t & Ht & id & E & Hp & _). vm_compute in Ht. injection Ht as <-. injection E as <-. discriminate.
Qed.
Print Assumptions C67_error_refuted.

(** ** C68: a value is documented by its static type *)

(** Full statement: the type found for an expression is its static type, up to pointers, which are documented as
    what they point to.  Proved for names, selections, literals, composite literals, calls, and these
    behind *, & and signs, as long as new, make and len are the builtins and no named type is a pointer. *)
Theorem C68_type_partial : forall co f e t,
  builtins_kept co f e -> no_named_pointers co -> simple co f e -> typed co f e t ->
  exists t', ExprType co f e = Ok t' /\ behind t' = behind t.
Proof. intros co f e t. apply static_type. Qed.
Print Assumptions C68_type_partial.
(** Under the same conditions no other expression is given a type that is not its own. *)
Theorem C68_never_other_partial : forall co f e t t',
  builtins_kept co f e -> no_named_pointers co -> typed co f e t -> ExprType co f e = Ok t' -> behind t' = behind t.
Proof. intros co f e t t'. apply static_type_sound. Qed.
Print Assumptions C68_never_other_partial.
(** The description of the value and the components registered are those of the static type. *)
Theorem C68_described_partial : forall co f e t n regs r,
  builtins_kept co f e -> no_named_pointers co -> simple co f e -> typed co f e t ->
  TypeResult n (co_types co) true (Some (path_of co (pkg_of co f))) "" t = (regs, Ok r) ->
  exists N, forall fuel, N <= fuel -> ExprResult co fuel f e = (regs, Ok r).
Proof.
  intros co f e t n regs r K P S T E. destruct (static_type co f e t K P S T) as (t' & Et & B).
  destruct (result_same _ _ _ _ _ _ _ B E) as (N & HN). exists N. intros fuel H. unfold ExprResult. rewrite Et. auto.
Qed.
Print Assumptions C68_described_partial.

Definition item_ref : ex := EUnary UAddr (EComposite (Some (id_ 6 "Item")) []).
Lemma no_builtins co f e : (forall id name obj, within (EIdent id name obj) e -> ~ In name ["new"; "make"; "len"]) -> builtins_kept co f e.
Proof. intros H id name obj W Hin. elim (H id name obj W Hin). Qed.
Lemma within_inv x e : within x e -> x = e \/ exists p, In p (parts e) /\ within x p.
Proof. intros H. inversion H; subst; eauto. Qed.
Ltac dig W := apply within_inv in W; destruct W as [W|W];
  [discriminate W || (injection W as -> -> ->)
  |let p := fresh in let I := fresh in destruct W as (p & I & W); cbn in I; repeat (destruct I as [<-|I]; [dig W|]); try destruct I].
Lemma item_kept f : builtins_kept demo f item_ref.
Proof. apply no_builtins. intros id name obj W. unfold item_ref in W. dig W. intros [E|[E|[E|[]]]]; discriminate. Qed.
Lemma item_typed : typed demo 0 item_ref (GPointer (GNamed 1)).
Proof. apply ty_addr, ty_composite. eapply dt_name; [constructor; reflexivity|reflexivity]. Qed.
Lemma item_simple : simple demo 0 item_ref.
Proof. constructor. constructor. Qed.
Example C68_nontrivial :
  builtins_kept demo 0 item_ref /\ no_named_pointers demo /\ simple demo 0 item_ref /\ typed demo 0 item_ref (GPointer (GNamed 1)) /\
  typed demo 0 (ECall (id_ 8 "len") [id_ 9 "items"]) (GBasic "int" KInt) /\ simple demo 0 (ECall (id_ 8 "len") [id_ 9 "items"]) /\
  builtins_kept demo 0 (ECall (id_ 8 "len") [id_ 9 "items"]) /\
  ExprType demo 0 item_ref = Ok (GNamed 1) /\
  exists regs r, TypeResult 9 demo_types true (Some "app") "" (GPointer (GNamed 1)) = (regs, Ok r) /\ q_type r = "Item".
Proof.
  assert (B : builtin demo 0 (id_ 8 "len") "len") by (exists 8, None, 8; repeat split).
  split; [apply item_kept|]. split; [exact demo_pointers|]. split; [exact item_simple|]. split; [exact item_typed|].
  split; [apply ty_len; exact B|]. split.
  { constructor. intros t H. inversion H as [e o t0 Hd Ho| | |]; subst. inversion Hd as [id n ob o' Hi|]; subst. vm_compute in Hi.
    injection Hi as <-. discriminate. }
  split.
  { intros id name obj W Hin. dig W; try exact B; destruct Hin as [E|[E|[E|[]]]]; discriminate. }
  split; [reflexivity|]. do 2 eexists. split; vm_compute; reflexivity.
Qed.

(** Parenthesised, indexed and binary expressions have no type here; nor have conversions. *)
Theorem C68_unsupported : forall co f e,
  (exists x, e = EParen x) \/ (exists x i, e = EIndex x i) \/ (exists b x y, e = EBinary b x y) \/
  (exists fn x t, e = ECall fn [x] /\ denotes_type co f fn t /\ builtins_kept co f fn) ->
  exists m, ExprType co f e = Err m.
Proof.
  intros co f e [(x & ->)|[(x & i & ->)|[(b & x & y & ->)|(fn & x & t & -> & H & K)]]]; try (eexists; reflexivity).
  inversion H as [e' o t' Hd Ho|id inner t' Ht|id inner t' Ht|x' t' Hx]; subst; try (eexists; reflexivity).
  rewrite (call_plain co f fn [x] o K Hd) by congruence. unfold ReturnType, CallType.
  inversion Hd; subst; rewrite (object_found _ _ _ _ H0), Ho; cbn; eauto.
Qed.
Print Assumptions C68_unsupported.
Theorem C68_index_refuted : exists co f e t m,
  builtins_kept co f e /\ no_named_pointers co /\ typed co f e t /\ ExprType co f e = Err m.
Proof.
  exists demo, 0, (EIndex (id_ 9 "items") (ELit 23 false "0")), (GNamed 1). eexists.
  split; [apply no_builtins; intros id name obj W; dig W; intros [E|[E|[E|[]]]]; discriminate|].
  split; [exact demo_pointers|]. split; [|reflexivity].
  eapply ty_index_slice, ty_var with (o := 9); [constructor; reflexivity|reflexivity].
Qed.
Print Assumptions C68_index_refuted.
(** A function of the program called len, new or make is taken for the builtin: the type is another one, and a
    call without arguments panics. *)
Definition own_len : code :=
  mkCode (co_file demo) (co_pkg demo) (fun o => if Nat.eqb o 8 then TFunc "len" None [GNamed 1] else co_obj demo o)
    (co_at demo) (co_home demo) demo_types (co_func demo).
Theorem C68_builtin_refuted : exists co f e t t',
  no_named_pointers co /\ typed co f e t /\ simple co f e /\ ExprType co f e = Ok t' /\ behind t' <> behind t.
Proof.
  exists own_len, 0, (ECall (id_ 8 "len") []), (GNamed 1), (GBasic "int" KInt). split; [exact demo_pointers|].
  split; [eapply ty_call; [constructor; reflexivity|reflexivity]|]. split; [|split; [reflexivity|discriminate]].
  constructor. intros t H. inversion H as [e o t0 Hd Ho| | |]; subst. inversion Hd as [id n ob o' Hi|]; subst. vm_compute in Hi.
  injection Hi as <-. discriminate.
Qed.
Print Assumptions C68_builtin_refuted.
Theorem C68_panic_refuted : exists co f e t, typed co f e t /\ ExprType co f e = Panic.
Proof.
  exists own_len, 0, (ECall (id_ 8 "new") []), (GNamed 1). split; [eapply ty_call; [constructor; reflexivity|reflexivity]|reflexivity].
Qed.
Print Assumptions C68_panic_refuted.
(** What a named pointer points to is documented as the named type. *)
Definition named_pointer : code :=
  mkCode (co_file demo) (co_pkg demo) (fun _ => TVar (GNamed 3)) (co_at demo) (co_home demo)
    (mkTE (te_pkg demo_types) (te_name demo_types) (fun i => if Nat.eqb i 3 then GPointer (GNamed 1) else te_under demo_types i)
          (te_doc demo_types) (te_loads demo_types) (te_decls demo_types) (te_floatOK demo_types)) (co_func demo).
Theorem C68_named_pointer_refuted : exists co f e t t',
  builtins_kept co f e /\ simple co f e /\ typed co f e t /\ ExprType co f e = Ok t' /\ behind t' <> behind t.
Proof.
  exists named_pointer, 0, (EStar (id_ 0 "p")), (GNamed 1), (GNamed 3).
  split; [apply no_builtins; intros id name obj W; dig W; intros [E|[E|[E|[]]]]; discriminate|].
  split; [repeat constructor|]. split; [|split; [reflexivity|discriminate]].
  eapply ty_deref_named; [eapply ty_var with (o := 0); [constructor; reflexivity|reflexivity]|reflexivity].
Qed.
Print Assumptions C68_named_pointer_refuted.

(** ** C70: from the source of a handler to its route *)

(** Full statement: the route of a handler documents, in source order, what its source says, with the functions it
    passes the context to.  Proved for sources in which calls pass the context to functions of packages only,
    statuses are decimal literals or constants, names are string literals without escapes, values are of the
    forms of C68, and there is no c.Data. *)
Definition program_of (co : code) (n : nat) (packages : string -> option (list (string * file * list fdecl)))
  (camel : string -> string) : program := mkProg (func_of co n) packages [] camel.

Theorem C70_documents_partial : forall co home ctx f e es regs last,
  no_named_pointers co -> scopes_agree co home -> says co home ctx f e es regs last ->
  exists N, forall n, N <= n -> documents (func_of co n) true ctx f (tree co n e) es regs last.
Proof. intros co home ctx f e es regs last P A. now apply source_documents. Qed.
Print Assumptions C70_documents_partial.

Theorem C70_route_partial : forall co home packages camel r f g op ctx es regs last,
  no_named_pointers co -> scopes_agree co home ->
  handler_of (program_of co 0 packages camel) r f g op ->
  first_context co f (fs_params (co_func co g)) ctx -> ctx <> "" -> (forall a, In a (fs_params (co_func co g)) -> sane_param co f a) ->
  says co home ctx f (fs_body (co_func co g)) es regs last ->
  exists N, forall n, N <= n -> exists M, forall fuel, M <= fuel -> forall comps,
    parseRoute fuel (program_of co n packages camel) r comps =
      Ok (analysed (fs_doc (co_func co g)) op es r, register comps regs).
Proof.
  intros co home packages camel r f g op ctx es regs last P A H Hc Hne Hs S.
  destruct (source_documents co home P A _ _ _ _ _ _ S) as (N & HN). exists N. intros n L.
  apply (parseRoute_sound (program_of co n packages camel) r f g op true ctx es regs last); [exact H|reflexivity| |exact Hne|now apply HN].
  now apply context_named.
Qed.
Print Assumptions C70_route_partial.

Definition demo_packages : string -> option (list (string * file * list fdecl)) :=
  one_of "app" [("/src/app/list.go", 0, [mkFD "List" (fun _ => 10%Z) 0 []])].
Definition demo_route : Route := mkRoute "app.List" "list.go" 10 "GET" "/items" [] [] [] [] "" "" [] [].
Lemma demo_handled n : handler_of (program_of demo n demo_packages (fun s => s)) demo_route 0 0 (Some "List").
Proof.
  exists "app", "List", [], [("/src/app/list.go", 0, [mkFD "List" (fun _ => 10%Z) 0 []])], [], "/src/app/list.go", [],
    (mkFD "List" (fun _ => 10%Z) 0 []), [], [].
  split; [reflexivity|]. split; [reflexivity|]. split; [now repeat constructor|]. split; [constructor|].
  split; [reflexivity|]. split; [reflexivity|]. split; [reflexivity|]. split; [intros x []|].
  split; [reflexivity|]. split; [intros d' [[]|[]]|]. left. repeat split.
Qed.

Definition item_value : writer Result := TypeResult 9 demo_types true (Some "app") "" (GPointer (GNamed 1)).
Definition item_regs : list Result := fst item_value.
Definition item_field : Field := match snd item_value with Ok r => ParseResultToField r | _ => field_of_type "" end.
Definition demo_events : list event :=
  [EQuery (str_param "page" false false); ERespHeader (str_param "X-Total" false false);
   EReturn (mkRet 200 "application/json" item_field)].

Ltac no_call := let fn := fresh in let args := fresh in let E := fresh in intros (fn & args & E); discriminate E.
Ltac quiet := apply says_node; [no_call|cbn [parts]; silent]
with silent := first [apply sa_nil | apply sa_one; quiet | eapply (sa_cons _ _ _ _ _ [] [] _ _ _ [] []); [quiet|silent]].
Lemma page_text : text_of demo 0 (ELit 20 true (quoted "page")) "page".
Proof. exists (quoted "page"). split; [constructor|]. split; [split; reflexivity|reflexivity]. Qed.
Lemma total_text : text_of demo 1 (id_ 11 "total") "X-Total".
Proof.
  exists (quoted "X-Total"). split; [|split; [split; reflexivity|reflexivity]].
  eapply sf_var with (o := 11); [reflexivity|reflexivity|reflexivity|left; reflexivity| |constructor].
  exists [], 11, (Some (Some DkOther)), [], [], []. repeat split. intros y [].
Qed.
Lemma header_says : says demo demo_home "ctx" 1 header_body [ERespHeader (str_param "X-Total" false false)] [] false.
Proof.
  apply says_node; [no_call|]. apply sa_one. apply says_node; [no_call|]. apply sa_one.
  eapply (says_context demo demo_home "ctx" 1 _ _ 10 "Header" ctx_type [] [ERespHeader (str_param "X-Total" false false)] [] [] [] false).
  - intros (id & obj & [E|[E|[]]]); discriminate.
  - constructor. reflexivity.
  - reflexivity.
  - exact demo_context_type.
  - apply (cc_read demo 1 "Header" (fun n => ERespHeader (str_param n false false)) (id_ 11 "total") _ "X-Total"); [|exact total_text].
    cbn. tauto.
  - silent.
Qed.
Lemma demo_value : value_of demo 0 item_ref item_regs item_field.
Proof.
  let s := eval vm_compute in (snd item_value) in match s with Ok ?r => exists (GPointer (GNamed 1)), 9, r end.
  split; [exact item_typed|]. split; [exact item_simple|]. split; [apply item_kept|]. split; vm_compute; reflexivity.
Qed.
Lemma demo_status : status demo 0 (ESel (id_ 4 "http") 5 "StatusOK") 200%Z.
Proof.
  eapply st_sel with (o := 5); [reflexivity|reflexivity|lia|reflexivity|now left|].
  intros o' [E|[]]. now injection E as <-.
Qed.
Lemma demo_says : says demo demo_home "c" 0 list_body demo_events item_regs false.
Proof.
  apply says_node; [no_call|]. cbn [parts].
  eapply (sa_cons demo demo_home "c" 0 _ [EQuery (str_param "page" false false)] [] _ _ _
            [ERespHeader (str_param "X-Total" false false); EReturn (mkRet 200 "application/json" item_field)] item_regs).
  - apply says_node; [no_call|]. eapply (sa_cons _ _ _ _ _ [] []); [quiet|]. apply sa_one.
    eapply (says_context demo demo_home "c" 0 _ _ 1 "Query" ctx_type [str_type] [EQuery (str_param "page" false false)] [] [] []).
    + intros (id & obj & [E|[]]); discriminate.
    + constructor. reflexivity.
    + reflexivity.
    + exact demo_context_type.
    + apply (cc_read demo 0 "Query" (fun n => EQuery (str_param n false false)) _ [] "page"); [now left|exact page_text].
    + silent.
  - eapply (sa_cons demo demo_home "c" 0 _ [ERespHeader (str_param "X-Total" false false)] [] _ _ _
              [EReturn (mkRet 200 "application/json" item_field)] item_regs).
    { apply says_node; [no_call|]. apply sa_one.
      eapply (says_helper demo demo_home "c" 0 _ _ 1 1 "ctx" [ERespHeader (str_param "X-Total" false false)] [] [] []).
      - exists 0, (Some (Some DkOther)). now left.
      - exact demo_helper.
      - reflexivity.
      - apply demo_first; auto.
      - discriminate.
      - intros a; apply demo_all_sane; auto.
      - exact header_says.
      - silent. }
    eapply (sa_cons demo demo_home "c" 0 _ [] [] _ _ _ [EReturn (mkRet 200 "application/json" item_field)] item_regs).
    { apply says_node; [no_call|]. eapply (sa_cons _ _ _ _ _ [] []); [quiet|]. apply sa_one.
      eapply says_skip; [intros (id & obj & [E|[]]); discriminate| |silent].
      eapply nf_object with (o := 8); [constructor; reflexivity|intros; discriminate]. }
    apply sa_one. apply says_node; [no_call|]. apply sa_one.
    rewrite <- (app_nil_r item_regs).
    eapply (says_context demo demo_home "c" 0 _ _ 7 "JSON" ctx_type [] [EReturn (mkRet 200 "application/json" item_field)] item_regs [] []).
    + intros (id & obj & [E|[E|[]]]); discriminate.
    + constructor. reflexivity.
    + reflexivity.
    + exact demo_context_type.
    + apply cc_render; [now left|exact demo_status|exact demo_value].
    + silent.
Qed.
Example C70_nontrivial :
  no_named_pointers demo /\ scopes_agree demo demo_home /\
  handler_of (program_of demo 0 demo_packages (fun s => s)) demo_route 0 0 (Some "List") /\
  first_context demo 0 (fs_params (co_func demo 0)) "c" /\ (forall a, In a (fs_params (co_func demo 0)) -> sane_param demo 0 a) /\
  says demo demo_home "c" 0 (fs_body (co_func demo 0)) demo_events item_regs false /\
  exists r comps, parseRoute 9 (program_of demo 9 demo_packages (fun s => s)) demo_route [] = Ok (r, comps) /\
    map p_name (rt_queryParams r) = ["page"] /\ map p_name (rt_respHeaders r) = ["X-Total"] /\
    map r_status (rt_returns r) = [200%Z] /\ rt_doc r = "Lists the items." /\ map f_name comps = ["Item"].
Proof.
  split; [exact demo_pointers|]. split; [exact demo_scopes|]. split; [apply demo_handled|]. split; [apply demo_first; auto|].
  split; [intros a; apply demo_all_sane; auto|]. split; [exact demo_says|].
  do 2 eexists. split; [vm_compute; reflexivity|]. repeat split.
Qed.

(** What a method documents that the handler passes its context to is missing from the route. *)
Definition by_method : code :=
  mkCode (co_file demo) (co_pkg demo) (fun o => match o with
              | 2 => TVar (GPointer (GNamed 3))
              | 3 => TFunc "Header" (Some (GPointer (GNamed 3))) []
              | _ => co_obj demo o
              end)
    (co_at demo) (co_home demo) demo_types
    (fun g => match g with
              | 0 => mkFn "" [mkPar ["c"] 30] (EOther [EOther [ECall (ESel (def_ 2 "h") 3 "Header") [def_ 0 "c"]]])
              | _ => nth g demo_funcs (mkFn "" [] (EOther []))
              end).
Theorem C70_method_refuted : exists co home packages r op x id args o name recv f' g ctx' es regs,
  handler_of (program_of co 0 packages (fun s => s)) r 0 0 op /\ fs_body (co_func co 0) = EOther [EOther [ECall (ESel x id name) args]] /\
  first_context co 0 (fs_params (co_func co 0)) "c" /\ mentions "c" args /\
  typed co 0 x recv /\ object_at co 0 id o /\ co_obj co o = TFunc name (Some recv) [] /\ home o = Some (f', name, g) /\
  first_context co f' (fs_params (co_func co g)) ctx' /\ says co home ctx' f' (fs_body (co_func co g)) es regs false /\ es <> [] /\
  forall n fuel comps, 2 <= n -> 2 <= fuel -> parseRoute fuel (program_of co n packages (fun s => s)) r comps = Ok (analysed "" op [] r, comps).
Proof.
  exists by_method, demo_home, demo_packages, demo_route, (Some "List"), (def_ 2 "h"), 3, [def_ 0 "c"], 3, "Header",
    (GPointer (GNamed 3)), 1, 1, "ctx", [ERespHeader (str_param "X-Total" false false)], [].
  split; [exact (demo_handled 0)|]. split; [reflexivity|]. split; [exact (demo_first 0 "c" (Nat.lt_0_succ 1) eq_refl)|].
  split; [exists 0, (Some (Some DkOther)); now left|].
  split; [eapply ty_var with (o := 2); [constructor; reflexivity|reflexivity]|]. split; [reflexivity|]. split; [reflexivity|]. split; [reflexivity|].
  split; [exact (demo_first 1 "ctx" (le_n _) eq_refl)|]. split.
  { apply says_node; [no_call|]. apply sa_one. apply says_node; [no_call|]. apply sa_one.
    eapply (says_context _ demo_home "ctx" 1 _ _ 10 "Header" ctx_type [] [ERespHeader (str_param "X-Total" false false)] [] [] [] false).
    - intros (id & obj & [E|[E|[]]]); discriminate.
    - constructor. reflexivity.
    - reflexivity.
    - exact demo_context_type.
    - apply (cc_read _ 1 "Header" (fun n => ERespHeader (str_param n false false)) (id_ 11 "total") _ "X-Total"); [cbn; tauto|].
      exists (quoted "X-Total"). split; [|split; [split; reflexivity|reflexivity]].
      eapply sf_var with (o := 11); [reflexivity|reflexivity|reflexivity|left; reflexivity| |constructor].
      exists [], 11, (Some (Some DkOther)), [], [], []. repeat split. intros y [].
    - silent. }
  split; [discriminate|]. intros n fuel comps Hn Hf.
  destruct fuel as [|[|fuel]]; try lia. destruct n as [|[|n]]; try lia. vm_compute. reflexivity.
Qed.
Print Assumptions C70_method_refuted.
