(** Property theorems about the schemas of what handlers send and receive: C71. *)
From Coq Require Import List String Ascii Bool ZArith Arith Lia.
From Verif Require Import BaseStr BaseMap M_Types M_Tags M_Collect M_Paths M_TypeTrav M_OpenAPI M_Parse M_Clean M_FS M_Service S_Collect S_OpenAPI S_Parse S_Paths S_Service S_Cache S_Files S_TypeTrav S_Whole S_Example M_Value S_Value.
From Verif Require Import M_Resolve S_Resolve P_Resolve S_Tags P_Tags P_Fields P_FS P_Path P_Frame P_Mono P_Temp P_Whole P_Told S_Names P_Parse3 P_Parse4 P_Comps
  S_Typed P_Typed S_Sends P_Sends P_Sent Props_Files Props_Names Props_OpenAPI Props_Parse Props_Whole Props_Resolve Props_Source.
Import ListNotations.
Local Open Scope string_scope.

(** Full statement: in the document of a run, the schemas of the responses and bodies of a route describe, through all
    references, the Go types of the values its handler sends and receives.  Proved for one router, sources as in
    C70_route_partial, no earlier document, and types that are transparent (S_Typed); if values of several types are
    sent with one status, or received, in one encoding, one of these is described. *)
Theorem C71_document_partial : forall co home packages camel f g ctx es regs last,
  no_named_pointers co -> scopes_agree co home -> go_names co ->
  first_context co f (fs_params (co_func co g)) ctx -> ctx <> "" -> (forall a, In a (fs_params (co_func co g)) -> sane_param co f a) ->
  says co home ctx f (fs_body (co_func co g)) es regs last ->
  exists N, forall n, N <= n ->
  forall env fuel s w s' w' input before o after x i file id level,
  sane w -> kind_at (work_dir s w) (w_fs w) = Some KDir -> fresh s ->
  analyses env fuel (fun main => program_of co n (packages main) camel) -> served_once s ->
  valid_orders (e_orders env) -> (forall i, offered s i -> gin_path (gi_path i)) ->
  sv_inputs s = [input] -> in_parse input = PaGin -> sv_memo s = None -> w_names w = [] ->
  sv_outputs s = (before ++ o :: after)%list -> Forall no_document before ->
  out_generate o = GeOpenAPI x -> left_alone s w after (document_place s w x) ->
  offered s i -> plain_method (gi_method i) -> e_rel env ("/" ++ join "/" (w_cwd w)) (gi_file i) = Some file ->
  (forall main, main = "" \/ main = sv_tempMain s' -> handler_of (program_of co n (packages main) camel) (entry_route i file) f g id) ->
  distinct_types (co_types co) (sv_tempMain s') (documented co) ->
  nameable (co_types co) (sv_tempMain s') (documented co) level -> named_mappings (sv_customTypes s) ->
  Parse env s w = (Ok tt, s', w') ->
  exists yaml d op, kind_at (document_place s w x) (w_fs w') = Some (KFile (CDocument yaml d)) /\
    operation_at d (openapi_path (gi_path i)) (gi_method i) op /\
    (forall z content t T, In (content, t) encodings ->
       sends co home ctx f (fs_body (co_func co g)) z content T ->
       (forall T', sends co home ctx f (fs_body (co_func co g)) z content T' ->
          transparent (co_types co) (sv_customTypes s) (sv_tempMain s') t T' /\ ~ anything T') ->
       exists resp sch T', mlookup (itoa z) (op_responses op) = Some resp /\ mlookup content (resp_content resp) = Some sch /\
         sends co home ctx f (fs_body (co_func co g)) z content T' /\
         portrays (co_types co) (sv_customTypes s) (sv_tempMain s') t d T' sch) /\
    (forall content t T, In (content, t) encodings ->
       receives co home ctx f (fs_body (co_func co g)) content T ->
       (forall T', receives co home ctx f (fs_body (co_func co g)) content T' ->
          transparent (co_types co) (sv_customTypes s) (sv_tempMain s') t T') ->
       exists bodies sch T', op_requestBody op = Some bodies /\ mlookup content bodies = Some sch /\
         receives co home ctx f (fs_body (co_func co g)) content T' /\
         portrays (co_types co) (sv_customTypes s) (sv_tempMain s') t d T' sch).
Proof.
  intros co home packages camel f g ctx es regs last P Ag GN Hc Hne Hs S.
  destruct (source_documents co home P Ag _ _ _ _ _ _ S) as (N & HN). exists N.
  intros n L env fuel s w s' w' input before o after x i file id level SA HD FR AN ON VO GP EI EP ME WN EO NB GO LA OF PM RE HO DT NA NM E.
  destruct (whole_run env s w SA HD fuel _ before o after x s' w' FR AN ON EO GO LA E)
    as (rs & routes & main & comps & d & custom & config & names0 & names & CR & SI & AL & _ & TM & EM & G & K & SK).
  destruct (SK NB) as (EC & EN). rewrite ME in EC. rewrite WN in EN. subst custom names0 main. clear SK. set (main := sv_tempMain s') in *.
  destruct (AL input EI EP) as (main0 & MM & EA & _). clear AL.
  destruct (AN main0) as (CU & AN0). rewrite AN0 in EA. clear AN0.
  assert (ND := created_once _ _ _ _ CR ON). assert (DR := cleaned_distinct main rs routes SI ND).
  assert (GP' : forall r, In r (cleanRoutes main routes) -> gin_path (rt_path r)).
  { intros r I. apply (cleaned_from main rs routes SI) in I as (r0 & I & -> & _).
    destruct (created_in _ _ _ _ _ CR I) as (i' & p & I1 & I2 & _ & ->). cbn. apply GP. split; auto. }
  set (prog := program_of co n (packages main0) camel) in *.
  destruct (parse_from_comps (own_comps co) (registered_type co) (fun c x H1 H2 => own_add co c x H1 H2) fuel prog CU
              (fun h => source_fine co n h GN) rs [] [] routes comps ND (own_nil co) EA) as (Ow & _ & out & EO' & F2).
  cbn [app] in EO'. subst out.
  destruct OF as (I & A0). destruct (created_has _ _ _ _ _ CR I A0) as (p & RE' & J). rewrite RE in RE'. injection RE' as <-. fold (entry_route i file) in J.
  assert (X : exists c c' r', parseRoute fuel prog (entry_route i file) c = Ok (r', c') /\ own_comps co c /\ grows c' comps /\ In r' routes).
  { clear - F2 J. induction F2 as [|a b l l' (c & c' & E1 & E2 & E3) F IH]; [destruct J|]. destruct J as [->|J]; [exists c, c', b; cbn; auto|].
    destruct (IH J) as (c1 & c2 & r' & A & B & C & D). exists c1, c2, r'. cbn. auto. }
  destruct X as (c & c' & r' & PR & _ & GR & IR).
  assert (HC := context_named co _ _ _ Hc Hs). assert (DO := HN n L).
  assert (EQ : r' = S_Parse.analysed (fs_doc (co_func co g)) id es (entry_route i file) /\ c' = register c regs).
  { destruct (parseRoute_sound prog (entry_route i file) f g id true ctx es regs last (HO main0 MM) CU HC Hne DO) as (M & HM).
    destruct (parseRoute_upto prog fuel (max fuel M) (Nat.le_max_l _ _) (entry_route i file) c) as [Y|Y]; [congruence|].
    rewrite PR, HM in Y by apply Nat.le_max_r. injection Y as -> ->. split; reflexivity. }
  destruct EQ as (-> & ->).
  assert (IC : incl (register c regs) comps) by (destruct GR as (tl & ->); apply incl_appl, incl_refl).
  assert (J' : In (cleanRoute main (S_Parse.analysed (fs_doc (co_func co g)) id es (entry_route i file))) (cleanRoutes main routes)) by now apply in_map.
  assert (PM' : rt_path (cleanRoute main (S_Parse.analysed (fs_doc (co_func co g)) id es (entry_route i file))) = gi_path i /\
                rt_method (cleanRoute main (S_Parse.analysed (fs_doc (co_func co g)) id es (entry_route i file))) = gi_method i).
  { unfold S_Parse.analysed, comment_of, with_op. destruct id, (String.eqb _ ""); split; reflexivity. }
  destruct PM' as (PM1 & PM2). destruct PM as (M1 & M2).
  destruct (C20_routes_documented_partial _ _ _ _ _ _ _ _ _ G DR GP' J') as (op & D); [congruence|congruence|].
  exists (is_yaml (openapiPath x)), d, op. split; [exact K|]. split; [destruct D as (D & _); now rewrite PM1, PM2 in D|].
  assert (BT : forall content t, In (content, t) encodings -> In t BindingTags).
  { intros content t H. cbn in H. repeat (destruct H as [H|H]; [injection H as <- <-; cbn; tauto|]). destruct H. }
  split.
  - intros z content t T En Sd All.
    eapply (sent_described co home (e_orders env) (sv_customTypes s) config (cleanRoutes main routes) main t comps d names level); eauto.
  - intros content t T En Rc All.
    eapply (received_described co home (e_orders env) (sv_customTypes s) config (cleanRoutes main routes) main t comps d names level); eauto.
Qed.
Print Assumptions C71_document_partial.

(** ** An example: a handler that decodes a value of a type and sends it back. *)
Definition stamp (name tag : string) (T : gtype) : gfield gtype := mkGF name true false tag T (fun _ => None).
Definition sale_types : TypeEnv :=
  mkTE (fun i => nth i [Some ginPath; Some "app"; Some "app"; Some "app/people"; Some "time"; None] None)
       (fun i => nth i ["Context"; "Order"; "Line"; "Customer"; "Time"; "error"] "")
       (fun i => nth i
          [GStruct [];
           GStruct [stamp "ID" ("json:" ++ quoted "id") str_type; stamp "Lines" ("json:" ++ quoted "lines,omitempty") (GSlice (GPointer (GNamed 2)));
                    stamp "Customer" ("json:" ++ quoted "customer") (GPointer (GNamed 3))];
           GStruct [stamp "Count" ("json:" ++ quoted "count") (GBasic "int" KInt); stamp "Notes" ("json:" ++ quoted "notes") (GMap str_type str_type)];
           GStruct [stamp "Name" ("json:" ++ quoted "name") str_type; stamp "Joined" ("json:" ++ quoted "joined") (GNamed 4);
                    stamp "Secret" ("json:" ++ quoted "-") str_type];
           GStruct [mkGF "wall" false false "" (GBasic "uint64" KInt) (fun _ => None)]; GInterface] GOther)
       (fun _ => "") (fun _ => true) (fun _ => []) (fun _ => false).
Definition sale_objects (T : gtype) : list tobj :=
  [TVar ctx_type; TFunc "ShouldBindJSON" (Some ctx_type) [GNamed 5]; TVar T; TFunc "JSON" (Some ctx_type) []; TPkg 1;
   TConst (CInt 201) (GBasic "int" KInt)].
Definition sale_ref : ex := EUnary UAddr (id_ 2 "v").
Definition sale_body : ex :=
  EOther [EOther [ECall (ESel (def_ 0 "c") 1 "ShouldBindJSON") [sale_ref]];
          EOther [ECall (ESel (def_ 0 "c") 3 "JSON") [ESel (id_ 4 "http") 5 "StatusCreated"; id_ 2 "v"]]].
Definition sale_pkg (T : gtype) (path : string) (scope : string -> option file) (defs : list (string * option nat)) : pinfo :=
  mkPkg path scope (fun id => if Nat.ltb id 6 then Some id else None) (fun id => if Nat.eqb id 30 then Some ctx_type else None) defs.
Definition sale (T : gtype) : code :=
  mkCode (fun f => mkFile 0 [("", 1); ("", 2)] (one_of "Create" (Some (DkFunc 0))))
    (fun p => match p with
              | 0 => sale_pkg T "app" (one_of "Create" 0) []
              | 1 => sale_pkg T "net/http" (fun _ => None) [("StatusCreated", Some 5)]
              | _ => sale_pkg T ginPath (fun _ => None) []
              end)
    (fun o => nth o (sale_objects T) (TVar GOther)) (fun _ => None) (fun o => match o with 5 => 1 | 1 | 3 => 2 | _ => 0 end)
    sale_types (fun g => nth g [mkFn "" [mkPar ["c"] 30] sale_body] (mkFn "" [] (EOther []))).
Definition no_home (o : nat) : option (file * string * funcref) := None.

Definition sale_packages : string -> option (list (string * file * list fdecl)) :=
  one_of "app" [("/src/app/create.go", 0, [mkFD "Create" (fun _ => 10%Z) 0 []])].
Definition sale_program (T : gtype) (n : nat) (main : string) : program := program_of (sale T) n sale_packages (fun s => s).
Definition sale_router : list GinRoute := [mkGin "POST" "/orders" "app.Create" "/src/app/create.go" 10].
Definition sale_service : Service :=
  New [WithGinInput (Some sale_router); WithConfig (Some shop_config); WithJSONOutput "routes"; WithOpenAPIOutput "api.yaml"; WithJSONOutput "later"].
Definition sale_env (T : gtype) (n : nat) : Env :=
  mkEnv no_fault (fun _ _ => Some "create.go") (fun _ _ => false)
    (fun _ main routes comps => GinParseRoutes 9 (sale_program T n main) routes comps) (fun _ _ => None) plain_orders.

(** *** What the source says *)
Section Sale.
  Context (T : gtype).
  Lemma sale_context : gin_context (sale T) ctx_type.
  Proof. exists 0. repeat split. Qed.
  Lemma sale_var f : typed (sale T) f (id_ 2 "v") T.
  Proof. eapply ty_var with (o := 2); [constructor; destruct f; reflexivity|reflexivity]. Qed.
  Lemma sale_addr f : typed (sale T) f sale_ref (GPointer T).
  Proof. apply ty_addr, sale_var. Qed.
  Lemma sale_status : status (sale T) 0 (ESel (id_ 4 "http") 5 "StatusCreated") 201%Z.
  Proof.
    eapply st_sel with (o := 5); [reflexivity|reflexivity|lia|reflexivity|now left|].
    intros o' [E|[]]. now injection E as <-.
  Qed.
  Lemma sale_kept e : e = sale_ref \/ e = id_ 2 "v" -> builtins_kept (sale T) 0 e.
  Proof. intros [->| ->]; apply no_builtins; intros id name obj W; dig W; intros [E|[E|[E|[]]]]; discriminate. Qed.

  Lemma sale_says n regs r : TypeResult n sale_types true (Some "app") "" T = (regs, Ok r) ->
    says (sale T) no_home "c" 0 sale_body
      [EBody (body_to "application/json" (ParseResultToField r)); EReturn (mkRet 201 "application/json" (ParseResultToField r))] (regs ++ regs) false.
  Proof.
    intros E. apply says_node; [no_call|]. cbn [parts].
    eapply (sa_cons (sale T) no_home "c" 0 _ [EBody (body_to "application/json" (ParseResultToField r))] regs _ _ _
              [EReturn (mkRet 201 "application/json" (ParseResultToField r))] regs).
    - apply says_node; [no_call|]. apply sa_one. rewrite <- (app_nil_r regs).
      eapply (says_context (sale T) no_home "c" 0 _ _ 1 "ShouldBindJSON" ctx_type [GNamed 5] [EBody (body_to "application/json" (ParseResultToField r))] regs [] []).
      + intros (id & obj & [X|[]]); discriminate.
      + constructor. reflexivity.
      + reflexivity.
      + exact sale_context.
      + apply (cc_bind (sale T) 0 "ShouldBindJSON" (fun f => [EBody (body_to "application/json" f)])); [cbn; tauto|].
        exists (GPointer T), (S n), r. split; [apply sale_addr|]. split; [repeat constructor|]. split; [apply sale_kept; auto|].
        split; [|reflexivity]. rewrite result_pointer. exact E.
      + silent.
    - apply sa_one. apply says_node; [no_call|]. apply sa_one. rewrite <- (app_nil_r regs).
      eapply (says_context (sale T) no_home "c" 0 _ _ 3 "JSON" ctx_type [] [EReturn (mkRet 201 "application/json" (ParseResultToField r))] regs [] []).
      + intros (id & obj & [X|[X|[]]]); discriminate.
      + constructor. reflexivity.
      + reflexivity.
      + exact sale_context.
      + apply cc_render; [now left|exact sale_status|].
        exists T, n, r. split; [apply sale_var|]. split; [constructor|]. split; [apply sale_kept; auto|]. split; [exact E|reflexivity].
      + silent.
  Qed.

  (** What it sends and receives. *)
  Lemma sale_sends : sends (sale T) no_home "c" 0 sale_body 201 "application/json" T.
  Proof.
    exists "JSON", (ESel (id_ 4 "http") 5 "StatusCreated"), (id_ 2 "v"), [], 0.
    split; [|split; [now left|split; [exact sale_status|apply sale_var]]].
    eapply ca_part; [right; left; reflexivity|]. eapply ca_part; [left; reflexivity|].
    eapply (ca_here (sale T) no_home "c" 0 _ _ 3 "JSON" ctx_type []); [intros (id & obj & [X|[X|[]]]); discriminate|constructor; reflexivity|reflexivity|exact sale_context].
  Qed.
  Lemma sale_receives : receives (sale T) no_home "c" 0 sale_body "application/json" (GPointer T).
  Proof.
    exists "ShouldBindJSON", sale_ref, [], 0. split; [|split; [cbn; tauto|apply sale_addr]].
    eapply ca_part; [left; reflexivity|]. eapply ca_part; [left; reflexivity|].
    eapply (ca_here (sale T) no_home "c" 0 _ _ 1 "ShouldBindJSON" ctx_type [GNamed 5]); [intros (id & obj & [X|[]]); discriminate|constructor; reflexivity|reflexivity|exact sale_context].
  Qed.

  Ltac inside W := apply within_inv in W; destruct W as [->|W];
    [|let p := fresh in let I := fresh in destruct W as (p & I & W); cbn in I; repeat (destruct I as [<-|I]; [inside W|]); try destruct I].
  (** Everything it calls. *)
  Lemma sale_calls name args f0 : calls (sale T) no_home "c" 0 sale_body name args f0 ->
    (name = "ShouldBindJSON" /\ args = [sale_ref] \/ name = "JSON" /\ args = [ESel (id_ 4 "http") 5 "StatusCreated"; id_ 2 "v"]) /\ f0 = 0.
  Proof.
    assert (Q : forall e, (forall x, within x e -> forall fn args, x <> ECall fn args) -> forall f, ~ calls (sale T) no_home "c" f e name args f0).
    { intros e H f C. assert (X : exists fn ar, within (ECall fn ar) e).
      { clear - C. induction C as [? ? fn ar|? ? p e ? ? ? I C IH|? ? fn ar]; [exists fn, ar; constructor| |exists fn, ar; constructor].
        destruct IH as (fn & ar & W). exists fn, ar. econstructor; eauto. }
      destruct X as (fn & ar & W). exact (H _ W fn ar eq_refl). }
    assert (Here : forall fn ar nm o' results, fn = ESel (def_ 0 "c") o' nm -> co_obj (sale T) o' = TFunc nm (Some ctx_type) results -> (o' < 6) ->
       (forall id obj, ~ In (EIdent id "c" obj) ar) -> (forall p, In p (fn :: ar) -> forall x, within x p -> forall fn args, x <> ECall fn args) ->
       calls (sale T) no_home "c" 0 (ECall fn ar) name args f0 -> name = nm /\ args = ar /\ f0 = 0).
    { intros fn ar nm o' results -> Eo L NC NP C. inversion C as [? ? ? ? o nm' recv rs M D E G|? ? p ? ? ? ? I C'|? ? ? ? ? ? ? ? ? ? M]; subst.
      - inversion D as [|? ? ? ? Ob]; subst. unfold object_at in Ob. cbn in Ob. destruct o' as [|[|[|[|[|[|o']]]]]]; try lia; injection Ob as <-; cbn in E, Eo; rewrite E in Eo; try discriminate; injection Eo as -> -> ->; auto.
      - exfalso. exact (Q p (NP p I) 0 C').
      - exfalso. destruct M as (id & obj & I). exact (NC _ _ I). }
    intros C. inversion C as [|? ? p ? ? ? ? I C'|]; subst. cbn in I. destruct I as [<-|[<-|[]]].
    - inversion C' as [|? ? p ? ? ? ? I C2|]; subst. cbn in I. destruct I as [<-|[]].
      destruct (Here _ [sale_ref] "ShouldBindJSON" 1 [GNamed 5] eq_refl eq_refl) as (-> & -> & ->); auto; try lia.
      + intros id obj [X|[]]; discriminate.
      + intros p [<-|[<-|[]]] x W; inside W; discriminate.
    - inversion C' as [|? ? p ? ? ? ? I C2|]; subst. cbn in I. destruct I as [<-|[]].
      destruct (Here _ [ESel (id_ 4 "http") 5 "StatusCreated"; id_ 2 "v"] "JSON" 3 [] eq_refl eq_refl) as (-> & -> & ->); auto; try lia.
      + intros id obj [X|[X|[]]]; discriminate.
      + intros p [<-|[<-|[<-|[]]]] x W; inside W; discriminate.
  Qed.
  Lemma sale_object f id o : object_at (sale T) f id o -> o = id /\ id < 6.
  Proof. unfold object_at. change (pi_objectOf (co_pkg (sale T) (pkg_of (sale T) f)) id) with (if Nat.ltb id 6 then Some id else None). destruct (Nat.ltb_spec id 6); [|discriminate]. intros E. injection E as <-. auto. Qed.
  Lemma sale_var_only f T' : typed (sale T) f (id_ 2 "v") T' -> T' = T.
  Proof.
    intros H. inversion H as [e o t D E|e o v t D E| | | | | | | | | | | | | | | |]; subst; inversion D as [? ? ? ? Ob|]; subst;
      apply sale_object in Ob as (-> & _); cbn in E; congruence.
  Qed.
  Lemma sale_sends_only z content T' : sends (sale T) no_home "c" 0 sale_body z content T' -> T' = T.
  Proof.
    intros (name & a & b & rest & f0 & C & _ & _ & Ty). apply sale_calls in C as ([(_ & E)|(_ & E)] & ->); [discriminate|].
    injection E as -> -> ->. eapply sale_var_only; eauto.
  Qed.
  Lemma sale_receives_only content T' : receives (sale T) no_home "c" 0 sale_body content T' -> T' = GPointer T.
  Proof.
    intros (name & a & rest & f0 & C & D & Ty). apply sale_calls in C as ([(_ & E)|(-> & E)] & ->).
    - injection E as -> ->. inversion Ty as [e o t X|e o v t X| | | |x t X| | | | | | | | | | | |]; subst; try (inversion X; fail).
      f_equal. eapply sale_var_only; eauto.
    - exfalso. cbn in D. intuition discriminate.
  Qed.
  Lemma sale_documented id : documented (sale T) id -> reach sale_types true T (GNamed id).
  Proof.
    intros (T' & (g & f & fn & args & o & name & recv & results & a & x & W & D & Eo & _ & Ia & Wx & A) & R).
    assert (WB : within (ECall fn args) sale_body).
    { destruct g as [|g]; [exact W|]. assert (E : co_func (sale T) (S g) = mkFn "" [] (EOther [])) by (destruct g; reflexivity).
      rewrite E in W. apply within_inv in W as [W|(p & [] & _)]; discriminate. }
    assert (AR : args = [sale_ref] \/ args = [ESel (id_ 4 "http") 5 "StatusCreated"; id_ 2 "v"]).
    { remember (ECall fn args) as c. clear - WB Heqc. inside WB; try discriminate; injection Heqc as _ ->; auto. }
    assert (TT : T' = T \/ T' = GBasic "int" KInt).
    { assert (XX : x = sale_ref \/ x = id_ 2 "v" \/ x = ESel (id_ 4 "http") 5 "StatusCreated" \/ x = id_ 4 "http" \/ x = EIdent 5 "StatusCreated" None).
      { destruct AR as [-> | ->]; [destruct Ia as [<-|[]]|destruct Ia as [<-|[<-|[]]]]; clear - Wx; inside Wx; auto. }
      assert (ND : forall nm q, ~ In (nm, Some q) (pi_defs (co_pkg (sale T) (pkg_of (sale T) f)))) by (intros nm q []).
      inversion A as [e o' T2 D2 H2|id' nm ob o' T2 No I2 H2|e id' T2 E2 H2]; subst.
      - destruct XX as [-> |[-> |[-> |[-> | ->]]]]; inversion D2 as [? ? ? ? Ob|? ? ? ? Ob]; subst; apply sale_object in Ob as (-> & _); cbn in H2; auto; contradiction.
      - exfalso. eapply ND; eauto.
      - exfalso. destruct XX as [-> |[-> |[-> |[-> | ->]]]]; destruct E2 as [(l & E)|[(l & E)|(s & y & E)]]; discriminate. }
    destruct TT as [-> | ->]; auto. exfalso. inversion R as [|y z P]; subst. inversion P.
  Qed.
End Sale.

(** *** A value of type Order *)
Definition order : gtype := GNamed 1.
Definition order_value : writer Result := TypeResult 9 sale_types true (Some "app") "" order.
Lemma order_reach id : reach sale_types true order (GNamed id) -> In id [1; 2; 3; 4].
Proof.
  assert (H : forall T X, reach sale_types true T X -> In T [GNamed 1; GNamed 2; GNamed 3; GNamed 4; te_under sale_types 1; te_under sale_types 2; te_under sale_types 3;
     te_under sale_types 4; str_type; GBasic "int" KInt; GSlice (GPointer (GNamed 2)); GPointer (GNamed 2); GPointer (GNamed 3); GMap str_type str_type] ->
     forall id, X = GNamed id -> In id [1; 2; 3; 4]).
  { induction 1 as [T|T Y X P R IH]; intros I j E.
    - subst T. cbn in I. repeat (destruct I as [I|I]; [first [discriminate I|injection I as <-; cbn; tauto]|]). destruct I.
    - apply IH; auto. clear IH R E. cbn in I.
      repeat (destruct I as [<-|I]; [inversion P as [| | | | |fs f If Ex|]; subst; try (cbn; tauto);
        cbn in If; repeat (destruct If as [<-|If]; [first [discriminate Ex|cbn; tauto]|]); destruct If|]). destruct I. }
  intros R. exact (H _ _ R (or_introl eq_refl) id eq_refl).
Qed.

Lemma members_distinct t fs : NoDup (map (fun f => (match Lookup (gf_tag f) t with Some v => encoder_name t (gf_name f) v | None => None end)) fs) ->
  forall f f' n, In f fs -> In f' fs -> member t f n -> member t f' n -> f = f'.
Proof.
  intros ND f f' n I I' (_ & _ & v & H & E) (_ & _ & v' & H' & E'). apply lookup_spec in H, H'.
  set (g := fun f : gfield gtype => match Lookup (gf_tag f) t with Some v => encoder_name t (gf_name f) v | None => None end) in ND.
  assert (G1 : g f = Some n) by (unfold g; now rewrite H). assert (G2 : g f' = Some n) by (unfold g; now rewrite H').
  clear H H' E E'. induction fs as [|x fs IH]; [destruct I|]. cbn in ND. inversion ND as [|? ? NI ND']; subst.
  destruct I as [->|I], I' as [->|I']; auto; exfalso; apply NI; [rewrite G1, <- G2|rewrite G2, <- G1]; now apply in_map.
Qed.
Lemma order_named main id : temp_main main -> In id [1; 2; 3; 4] -> exists p, te_pkg sale_types id = Some p /\ spoken main p = p.
Proof.
  intros TM I. cbn in I. repeat (destruct I as [<-|I]; [eexists; split; [reflexivity|]; unfold spoken; match goal with |- context [String.eqb ?a ?b] => destruct (String.eqb_spec a b) as [E|_] end; [rewrite <- E in TM; vm_compute in TM; discriminate TM|reflexivity]|]).
  destruct I.
Qed.
Lemma order_transparent main : temp_main main -> transparent sale_types [] main "json" order.
Proof.
  intros TM. split; [repeat constructor|]. intros id R. apply order_reach in R. destruct (order_named main id TM R) as (p & Hp & Sp).
  assert (PF : forall name v T, name <> "" -> flat T -> Lookup ("json:" ++ quoted v) "json" = Some v ->
     (forall k, In k BindingTags -> k <> "json" -> Lookup ("json:" ++ quoted v) k = None) -> (before_comma v = "-" -> v = "-") ->
     plain_field "json" (stamp name ("json:" ++ quoted v) T)).
  { intros name v T N F L NL B. split; auto. cbn [gf_embedded stamp gf_type gf_tag]. split; auto. split.
    - intros k x Ik H. apply lookup_spec in H. destruct (string_dec k "json"); auto. rewrite NL in H; auto. discriminate.
    - exists v. split; [now apply lookup_spec|]. split; auto. discriminate. }
  assert (NL : forall v, In v ["id"; "lines,omitempty"; "customer"; "count"; "notes"; "name"; "joined"; "-"] ->
     forall k, In k BindingTags -> k <> "json" -> Lookup ("json:" ++ quoted v) k = None).
  { intros v Iv k Ik N. cbn in Iv, Ik. repeat (destruct Ik as [<-|Ik]; [try (now elim N); repeat (destruct Iv as [<-|Iv]; [reflexivity|]); destruct Iv|]). destruct Ik. }
  exists p. split; auto. rewrite Sp. split; [cbn in R; repeat (destruct R as [<-|R]; [discriminate|]); destruct R|].
  assert (ST : forall b ty k, In (b, ty) basic_types -> flat (GBasic b k)) by (intros; constructor; econstructor; eauto).
  cbn in R. destruct R as [<-|[<-|[<-|[<-|[]]]]]; cbn in Hp; injection Hp as <-.
  - right. split; [reflexivity|]. split; [|discriminate]. cbn [te_under sale_types nth plain_definition]. split; [|split].
    + intros f I _. destruct I as [<-|[<-|[<-|[]]]]; (apply PF; [discriminate| |reflexivity|apply NL; cbn; tauto|discriminate]).
      * eapply ST. cbn. tauto.
      * apply fl_slice; [repeat constructor|]. intros (b & k & E & _). discriminate.
      * repeat constructor.
    + right. eexists. split; [left; reflexivity|auto].
    + apply members_distinct. repeat constructor; cbn; intuition discriminate.
  - right. split; [reflexivity|]. split; [|discriminate]. cbn [te_under sale_types nth plain_definition]. split; [|split].
    + intros f I _. destruct I as [<-|[<-|[]]]; (apply PF; [discriminate| |reflexivity|apply NL; cbn; tauto|discriminate]).
      * eapply ST. cbn. tauto.
      * apply fl_map; econstructor; cbn; tauto.
    + right. eexists. split; [left; reflexivity|auto].
    + apply members_distinct. repeat constructor; cbn; intuition discriminate.
  - right. split; [reflexivity|]. split; [|discriminate]. cbn [te_under sale_types nth plain_definition]. split; [|split].
    + intros f I _. destruct I as [<-|[<-|[<-|[]]]]; (apply PF; [discriminate| |reflexivity|apply NL; cbn; tauto|try discriminate; auto]).
      * eapply ST. cbn. tauto.
      * repeat constructor.
      * eapply ST. cbn. tauto.
    + right. eexists. split; [left; reflexivity|auto].
    + apply members_distinct. repeat constructor; cbn; intuition discriminate.
  - left. split; [discriminate|]. split; [discriminate|]. intros fs f E I. injection E as <-. destruct I as [<-|[]]. reflexivity.
Qed.
Lemma order_distinct main : temp_main main -> distinct_types sale_types main (documented (sale order)).
Proof.
  intros TM. split.
  - intros id p U _ Hp. apply sale_documented, order_reach in U. cbn in U.
    repeat (destruct U as [<-|U]; [injection Hp as <-; split; [discriminate|]; split; [discriminate|]; split; [cbn; intuition discriminate|];
      split; [split; [discriminate|reflexivity]|]; intros fs f E I; injection E as <-; cbn in I; repeat (destruct I as [<-|I]; [discriminate|]); destruct I|]). destruct U.
  - intros i j p q U V _ _ Hp Hq S N. apply sale_documented, order_reach in U, V.
    destruct (order_named main i TM U) as (p' & Hp' & Sp). destruct (order_named main j TM V) as (q' & Hq' & Sq).
    rewrite Hp in Hp'. injection Hp' as <-. rewrite Hq in Hq'. injection Hq' as <-. rewrite Sp, Sq in S. subst q. clear Sp Sq TM. cbn in U, V.
    repeat (destruct U as [<-|U]; [repeat (destruct V as [<-|V]; [first [reflexivity|discriminate N]|]); destruct V|]). destruct U.
Qed.
Lemma order_nameable main : temp_main main -> nameable sale_types main (documented (sale order)) (fun _ => 0).
Proof.
  intros TM. split.
  - intros i j p q U V _ _ Hp Hq L N. apply sale_documented, order_reach in U, V. exfalso.
    destruct (order_named main i TM U) as (p' & Hp' & Sp). destruct (order_named main j TM V) as (q' & Hq' & Sq).
    rewrite Hp in Hp'. injection Hp' as <-. rewrite Hq in Hq'. injection Hq' as <-. rewrite Sp, Sq in L, N. clear Sp Sq TM. cbn in U, V.
    repeat (destruct U as [<-|U]; [repeat (destruct V as [<-|V]; [cbn in Hp, Hq; injection Hp as <-; injection Hq as <-; first [now elim N|vm_compute in L; discriminate L]|]); destruct V|]). destruct U.
  - intros i p U _ Hp. apply sale_documented, order_reach in U. destruct (order_named main i TM U) as (p' & Hp' & Sp).
    rewrite Hp in Hp'. injection Hp' as <-. rewrite Sp. clear Sp TM. cbn in U.
    repeat (destruct U as [<-|U]; [injection Hp as <-; split; [reflexivity|]; vm_compute; repeat constructor; intuition discriminate|]). destruct U.
Qed.
Lemma sale_handled T n main i : i = nth 0 sale_router (mkGin "" "" "" "" 0) -> handler_of (sale_program T n main) (entry_route i "create.go") 0 0 (Some "Create").
Proof.
  intros ->. exists "app", "Create", [], [("/src/app/create.go", 0, [mkFD "Create" (fun _ => 10%Z) 0 []])], [], "/src/app/create.go", [],
    (mkFD "Create" (fun _ => 10%Z) 0 []), [], [].
  split; [reflexivity|]. split; [reflexivity|]. split; [now repeat constructor|]. split; [constructor|].
  split; [reflexivity|]. split; [reflexivity|]. split; [reflexivity|]. split; [intros x []|].
  split; [reflexivity|]. split; [intros d' [[]|[]]|]. left. repeat split.
Qed.

Lemma predefined_named : named_mappings [].
Proof.
  intros p. change (typeMapping [] "" p) with (mlookup (p ++ ".") PredefinedTypeMap).
  destruct (mlookup (p ++ ".") PredefinedTypeMap) as [tf|] eqn:E; [|reflexivity]. exfalso.
  apply mlookup_In, (in_map fst) in E. cbn [fst] in E.
  assert (S : has_suffix "." (p ++ ".") = true) by (apply has_suffix_spec; eauto).
  cbn in E. repeat (destruct E as [E|E]; [rewrite <- E in S; vm_compute in S; discriminate S|]). destruct E.
Qed.

Example C71_nontrivial :
  let co := sale order in
  let i := nth 0 sale_router (mkGin "" "" "" "" 0) in
  no_named_pointers co /\ scopes_agree co no_home /\ go_names co /\
  first_context co 0 (fs_params (co_func co 0)) "c" /\ (forall a, In a (fs_params (co_func co 0)) -> sane_param co 0 a) /\
  (exists es regs, says co no_home "c" 0 (fs_body (co_func co 0)) es regs false) /\
  sane ex_world /\ kind_at (work_dir sale_service ex_world) (w_fs ex_world) = Some KDir /\ fresh sale_service /\
  (forall n, analyses (sale_env order n) 9 (sale_program order n)) /\ served_once sale_service /\
  (forall i, offered sale_service i -> gin_path (gi_path i)) /\
  sv_memo sale_service = None /\ w_names ex_world = [] /\
  (exists before after, sv_outputs sale_service = (before ++ api_output :: after)%list /\ before <> [] /\ after <> [] /\ Forall no_document before /\
     left_alone sale_service ex_world after (document_place sale_service ex_world "api.yaml")) /\
  offered sale_service i /\ plain_method (gi_method i) /\
  (forall n main, handler_of (sale_program order n main) (entry_route i "create.go") 0 0 (Some "Create")) /\
  (forall main, temp_main main -> distinct_types (co_types co) main (documented co) /\ nameable (co_types co) main (documented co) (fun _ => 0)) /\
  named_mappings (sv_customTypes sale_service) /\
  sends co no_home "c" 0 (fs_body (co_func co 0)) 201 "application/json" order /\
  receives co no_home "c" 0 (fs_body (co_func co 0)) "application/json" (GPointer order) /\
  (forall main T', temp_main main -> sends co no_home "c" 0 (fs_body (co_func co 0)) 201 "application/json" T' ->
     transparent (co_types co) (sv_customTypes sale_service) main "json" T' /\ ~ anything T') /\
  (forall main T', temp_main main -> receives co no_home "c" 0 (fs_body (co_func co 0)) "application/json" T' ->
     transparent (co_types co) (sv_customTypes sale_service) main "json" T') /\
  exists s' w' yaml d op resp, Parse (sale_env order 9) sale_service ex_world = (Ok tt, s', w') /\ temp_main (sv_tempMain s') /\
    kind_at (document_place sale_service ex_world "api.yaml") (w_fs w') = Some (KFile (CDocument yaml d)) /\
    operation_at d "/orders" "POST" op /\ mlookup "201" (op_responses op) = Some resp /\
    resp_content resp = [("application/json", refSchema "#/components/schemas/app.Order")] /\
    map fst (d_schemas d) = ["app.Line"; "app.Order"; "people.Customer"; "time.Time"].
Proof.
  cbn zeta. split. { intros id t. cbn. destruct id as [|[|[|[|[|[|[|id]]]]]]]; discriminate. }
  split; [intros o f name g H; discriminate H|].
  split. { intros id. cbn. destruct id as [|[|[|[|[|[|[|id]]]]]]]; (split; [reflexivity|intros p E; first [discriminate E|injection E as <-; reflexivity]]). }
  split. { exists [], (mkPar ["c"] 30), [], []. split; [reflexivity|]. split; [exists ctx_type; split; [reflexivity|exact (sale_context order)]|]. split; [reflexivity|intros b []]. }
  split. { intros a [<-|[]]. split; [intros (id & H & N)|intros k H]; vm_compute in H; [|discriminate H]. injection H as <-. discriminate N. }
  split.
  { let s := eval vm_compute in (snd order_value) in match s with Ok ?r => do 2 eexists; apply (sale_says order 9 (fst order_value) r) end.
    vm_compute. reflexivity. }
  split; [exact ex_sane|]. split; [reflexivity|]. split; [repeat split|]. split; [intros n m; split; [reflexivity|reflexivity]|].
  split. { unfold served_once. cbn. repeat constructor; cbn; intuition discriminate. }
  split. { intros i (I & _). cbn in I. destruct I as [<-|[]]; repeat constructor. }
  split; [reflexivity|]. split; [reflexivity|].
  split.
  { exists [mkOutput "json" (GeJSON "routes") [("filePath", VStr "routes")]], [mkOutput "json" (GeJSON "later") [("filePath", VStr "later")]].
    split; [reflexivity|]. split; [discriminate|]. split; [discriminate|]. split; [constructor; [intros x; discriminate|constructor]|]. split; [|split].
    - intros o [<-|[]]. vm_compute. discriminate.
    - intros (r & E). vm_compute in E. discriminate E.
    - discriminate. }
  split; [split; [cbn; auto|intros d []]|]. split; [split; [cbn; auto|discriminate]|].
  split; [intros n main; now apply sale_handled|].
  split; [intros main TM; split; [now apply order_distinct|now apply order_nameable]|].
  split; [exact predefined_named|].
  split; [apply sale_sends|]. split; [apply sale_receives|].
  split. { intros main T' TM H. apply sale_sends_only in H as ->. split; [now apply order_transparent|]. intros A. inversion A. }
  split. { intros main T' TM H. apply sale_receives_only in H as ->. destruct (order_transparent main TM) as (V & R). split; [repeat constructor|].
           intros id X. apply R. inversion X as [|y z P X']; subst. inversion P; subst. exact X'. }
  pose (X := Parse (sale_env order 9) sale_service ex_world).
  exists (snd (fst X)), (snd X).
  assert (Y : fst (fst X) = Ok tt) by (vm_compute; reflexivity).
  assert (TM : temp_main (sv_tempMain (snd (fst X)))) by (vm_compute; reflexivity).
  assert (Z : exists yaml d op resp, kind_at (document_place sale_service ex_world "api.yaml") (w_fs (snd X)) = Some (KFile (CDocument yaml d)) /\
     operation_at d "/orders" "POST" op /\ mlookup "201" (op_responses op) = Some resp /\
     resp_content resp = [("application/json", refSchema "#/components/schemas/app.Order")] /\
     map fst (d_schemas d) = ["app.Line"; "app.Order"; "people.Customer"; "time.Time"]).
  { do 4 eexists. split; [vm_compute; reflexivity|]. split; [|split; [|split]].
    - eexists. split; [vm_compute; reflexivity|]. vm_compute; reflexivity.
    - vm_compute; reflexivity.
    - vm_compute; reflexivity.
    - vm_compute; reflexivity. }
  destruct Z as (yaml & d & op & resp & Z). exists yaml, d, op, resp. split; [|split; [exact TM|exact Z]].
  fold X. rewrite <- Y. now destruct X as ((? & ?) & ?).
Qed.

(** ** Refuted *)

(** An array is sent: its response has no content. *)
Theorem C71_array_refuted : exists co home ctx f e z T env s w s' w' yaml d op resp,
  sends co home ctx f e z "application/json" T /\ T = GArray 2 str_type /\
  Parse env s w = (Ok tt, s', w') /\ kind_at (document_place s w "api.yaml") (w_fs w') = Some (KFile (CDocument yaml d)) /\
  operation_at d "/orders" "POST" op /\ mlookup (itoa z) (op_responses op) = Some resp /\ resp_content resp = [].
Proof.
  pose (T := GArray 2 str_type). pose (X := Parse (sale_env T 9) sale_service ex_world).
  exists (sale T), no_home, "c", 0, sale_body, 201%Z, T, (sale_env T 9), sale_service, ex_world, (snd (fst X)), (snd X).
  assert (Y : fst (fst X) = Ok tt) by (vm_compute; reflexivity).
  assert (Z : exists yaml d op resp, kind_at (document_place sale_service ex_world "api.yaml") (w_fs (snd X)) = Some (KFile (CDocument yaml d)) /\
     operation_at d "/orders" "POST" op /\ mlookup (itoa 201) (op_responses op) = Some resp /\ resp_content resp = []).
  { do 4 eexists. split; [vm_compute; reflexivity|]. split; [|split].
    - eexists. split; [vm_compute; reflexivity|]. vm_compute; reflexivity.
    - vm_compute; reflexivity.
    - vm_compute; reflexivity. }
  destruct Z as (yaml & d & op & resp & Z). exists yaml, d, op, resp. split; [apply sale_sends|]. split; [reflexivity|]. split; [|exact Z].
  fold X. rewrite <- Y. now destruct X as ((? & ?) & ?).
Qed.
Print Assumptions C71_array_refuted.

(** A map of lists is sent: the schema does not say what is in the lists. *)
Theorem C71_nested_refuted : exists co home ctx f e z T env s w s' w' yaml d op resp sch,
  sends co home ctx f e z "application/json" T /\ T = GMap str_type (GSlice str_type) /\
  Parse env s w = (Ok tt, s', w') /\ kind_at (document_place s w "api.yaml") (w_fs w') = Some (KFile (CDocument yaml d)) /\
  operation_at d "/orders" "POST" op /\ mlookup (itoa z) (op_responses op) = Some resp /\
  resp_content resp = [("application/json", sch)] /\ ~ portrays (co_types co) (sv_customTypes s) (sv_tempMain s') "json" d T sch.
Proof.
  pose (T := GMap str_type (GSlice str_type)). pose (X := Parse (sale_env T 9) sale_service ex_world).
  exists (sale T), no_home, "c", 0, sale_body, 201%Z, T, (sale_env T 9), sale_service, ex_world, (snd (fst X)), (snd X).
  assert (Y : fst (fst X) = Ok tt) by (vm_compute; reflexivity).
  assert (Z : exists yaml d op resp sch, kind_at (document_place sale_service ex_world "api.yaml") (w_fs (snd X)) = Some (KFile (CDocument yaml d)) /\
     operation_at d "/orders" "POST" op /\ mlookup (itoa 201) (op_responses op) = Some resp /\ resp_content resp = [("application/json", sch)] /\
     s_addl sch = Some (typeSchema "array" "")).
  { do 5 eexists. split; [vm_compute; reflexivity|]. split; [|split; [|split]].
    - eexists. split; [vm_compute; reflexivity|]. vm_compute; reflexivity.
    - vm_compute; reflexivity.
    - vm_compute; reflexivity.
    - vm_compute; reflexivity. }
  destruct Z as (yaml & d & op & resp & sch & Z1 & Z2 & Z3 & Z4 & Z5). exists yaml, d, op, resp, sch. split; [apply sale_sends|]. split; [reflexivity|].
  split; [fold X; rewrite <- Y; now destruct X as ((? & ?) & ?)|]. do 4 (split; [assumption|]).
  intros P. specialize (P 0). inversion P as [| | | | |k e s a _ _ A H| |]; subst. rewrite Z5 in A. injection A as <-.
  inversion H as [| | |e s i _ _ I _| | | |]; subst. discriminate I.
Qed.
Print Assumptions C71_nested_refuted.

(** A list of bytes is sent: encoded it is one string, but the schema says it is a list. *)
Theorem C71_bytes_refuted : exists co home ctx f e z T env s w s' w' yaml d op resp sch,
  sends co home ctx f e z "application/json" T /\ T = GSlice (GBasic "byte" KInt) /\ S_More.json_shape (co_types co) T S_More.JString /\
  Parse env s w = (Ok tt, s', w') /\ kind_at (document_place s w "api.yaml") (w_fs w') = Some (KFile (CDocument yaml d)) /\
  operation_at d "/orders" "POST" op /\ mlookup (itoa z) (op_responses op) = Some resp /\
  resp_content resp = [("application/json", sch)] /\ s_type sch = "array".
Proof.
  pose (T := GSlice (GBasic "byte" KInt)). pose (X := Parse (sale_env T 9) sale_service ex_world).
  exists (sale T), no_home, "c", 0, sale_body, 201%Z, T, (sale_env T 9), sale_service, ex_world, (snd (fst X)), (snd X).
  assert (Y : fst (fst X) = Ok tt) by (vm_compute; reflexivity).
  assert (Z : exists yaml d op resp sch, kind_at (document_place sale_service ex_world "api.yaml") (w_fs (snd X)) = Some (KFile (CDocument yaml d)) /\
     operation_at d "/orders" "POST" op /\ mlookup (itoa 201) (op_responses op) = Some resp /\ resp_content resp = [("application/json", sch)] /\
     s_type sch = "array").
  { do 5 eexists. split; [vm_compute; reflexivity|]. split; [|split; [|split]].
    - eexists. split; [vm_compute; reflexivity|]. vm_compute; reflexivity.
    - vm_compute; reflexivity.
    - vm_compute; reflexivity.
    - vm_compute; reflexivity. }
  destruct Z as (yaml & d & op & resp & sch & Z). exists yaml, d, op, resp, sch. split; [apply sale_sends|]. split; [reflexivity|].
  split; [apply S_More.js_bytes; exists "byte", KInt; auto|]. split; [fold X; rewrite <- Y; now destruct X as ((? & ?) & ?)|exact Z].
Qed.
Print Assumptions C71_bytes_refuted.
