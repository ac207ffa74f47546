(** Property theorems about query parameters, from the source to the document: C72. *)
From Coq Require Import List String Ascii Bool ZArith Arith Lia.
From Verif Require Import BaseStr BaseMap M_Types M_Tags M_Collect M_Paths M_TypeTrav M_OpenAPI M_Parse M_Clean M_FS M_Service S_Collect S_OpenAPI S_Parse S_Paths S_Service S_Cache S_Files S_TypeTrav S_Whole S_Example M_Value S_Value.
From Verif Require Import M_Resolve S_Resolve P_Resolve S_Tags P_Tags P_Fields P_FS P_Path P_Frame P_Mono P_Temp P_Whole P_Told S_Names P_Parse3 P_Parse4 P_Comps
  S_Typed P_Typed S_Sends P_Sends P_Sent S_Queries P_Query P_Run Props_Files Props_Names Props_OpenAPI Props_Parse Props_Whole Props_Resolve Props_Source Props_Typed.
Import ListNotations.
Local Open Scope string_scope.

(** Full statement: in the document of a run, a route has exactly the query parameters that its handler asks for, by
    name or with a struct, each with a schema that describes the Go type of its values, and marked as required if the
    handler insists on it.  Proved for one router, sources as in C70_route_partial, no earlier document, and structs
    that are transparent (S_Typed) and have no embedded fields; required is refuted below, DefaultQuery as well. *)
Theorem C72_queries_partial : forall co home packages camel f g ctx es regs last,
  no_named_pointers co -> scopes_agree co home -> go_names co ->
  first_context co f (fs_params (co_func co g)) ctx -> ctx <> "" -> (forall a, In a (fs_params (co_func co g)) -> sane_param co f a) ->
  says co home ctx f (fs_body (co_func co g)) es regs last ->
  exists N, forall n, N <= n ->
  forall env fuel s w s' w' input before o after x i file id level,
  sane w -> kind_at (work_dir s w) (w_fs w) = Some KDir -> fresh s ->
  analyses env fuel (fun main => program_of co n (packages main) camel) -> served_once s ->
  valid_orders (e_orders env) -> (forall i, offered s i -> gin_path (gi_path i)) ->
  sv_inputs s = [input] -> in_parse input = PaGin -> sv_memo s = None -> w_names w = [] ->
  sv_outputs s = (before ++ o :: after)%list -> Forall no_document before ->
  out_generate o = GeOpenAPI x -> left_alone s w after (document_place s w x) ->
  offered s i -> plain_method (gi_method i) -> e_rel env ("/" ++ join "/" (w_cwd w)) (gi_file i) = Some file ->
  (forall main, main = "" \/ main = sv_tempMain s' -> handler_of (program_of co n (packages main) camel) (entry_route i file) f g id) ->
  distinct_types (co_types co) (sv_tempMain s') (documented co) ->
  nameable (co_types co) (sv_tempMain s') (documented co) level -> named_mappings (sv_customTypes s) ->
  (forall T, binds_query co home ctx f (fs_body (co_func co g)) T ->
     transparent (co_types co) (sv_customTypes s) (sv_tempMain s') "form" T /\
     exists fs, query_struct (co_types co) (sv_customTypes s) (sv_tempMain s') T fs) ->
  Parse env s w = (Ok tt, s', w') ->
  exists yaml d op, kind_at (document_place s w x) (w_fs w') = Some (KFile (CDocument yaml d)) /\
    operation_at d (openapi_path (gi_path i)) (gi_method i) op /\
    (forall name T, reads_query co home ctx f (fs_body (co_func co g)) name T ->
       exists sch, has_query op false name sch /\ portrays (co_types co) (sv_customTypes s) (sv_tempMain s') "form" d T sch) /\
    (forall T fs fd name, binds_query co home ctx f (fs_body (co_func co g)) T ->
       query_struct (co_types co) (sv_customTypes s) (sv_tempMain s') T fs -> In fd fs -> member "form" fd name ->
       exists sch, has_query op false name sch /\ portrays (co_types co) (sv_customTypes s) (sv_tempMain s') "form" d (gf_type fd) sch) /\
    (forall required name sch, has_query op required name sch ->
       (exists T, reads_query co home ctx f (fs_body (co_func co g)) name T /\
          portrays (co_types co) (sv_customTypes s) (sv_tempMain s') "form" d T sch) \/
       (exists T fs fd, binds_query co home ctx f (fs_body (co_func co g)) T /\
          query_struct (co_types co) (sv_customTypes s) (sv_tempMain s') T fs /\ In fd fs /\ member "form" fd name /\
          portrays (co_types co) (sv_customTypes s) (sv_tempMain s') "form" d (gf_type fd) sch)).
Proof.
  intros co home packages camel f g ctx es regs last P Ag GN Hc Hne Hs S.
  destruct (run_document co home packages camel f g ctx es regs last P Ag GN Hc Hne Hs S) as (N & HN). exists N.
  intros n L env fuel s w s' w' input before o after x i file id level SA HD FR AN ON VO GP EI EP ME WN EO NB GO LA OF PM RE HO DT NA NM All E.
  destruct (HN n L env fuel s w s' w' input before o after x i file id SA HD FR AN ON VO GP EI EP ME WN EO NB GO LA OF PM RE HO E)
    as (yaml & d & op & config & routes & comps & names & l & K & O & Ow & IC & G & DR & GP' & J & D).
  exists yaml, d, op. split; [exact K|]. split; [exact O|].
  exact (queries_described co home (e_orders env) (sv_customTypes s) config routes (sv_tempMain s') comps d names level VO P DT NA NM Ow G ctx f g regs l IC Ag es last S
           (fs_doc (co_func co g)) id i file op DR GP' J D All).
Qed.
Print Assumptions C72_queries_partial.

(** ** An example: a handler that reads a filter, a list and a parameter with a default. *)
Definition list_types : TypeEnv :=
  mkTE (fun i => nth i [Some ginPath; Some "app"; Some "app"; None; Some "app"; Some "app"] None)
       (fun i => nth i ["Context"; "Filter"; "Date"; "error"; "Paged"; "Strict"] "")
       (fun i => nth i
          [GStruct [];
           GStruct [stamp "Name" ("form:" ++ quoted "name") str_type; stamp "Min" ("form:" ++ quoted "min") (GPointer (GBasic "int" KInt));
                    stamp "Since" ("form:" ++ quoted "since") (GNamed 2); stamp "Secret" ("form:" ++ quoted "-") str_type];
           str_type; GInterface;
           GStruct [mkGF "Filter" true true "" (GNamed 1) (fun _ => None); stamp "Page" ("form:" ++ quoted "page") (GBasic "int" KInt)];
           GStruct [stamp "Q" ("form:" ++ quoted "q" ++ " binding:" ++ quoted "required") str_type]] GOther)
       (fun _ => "") (fun _ => true) (fun _ => []) (fun _ => false).
Definition list_objects (T : gtype) : list tobj :=
  [TVar ctx_type; TFunc "ShouldBindQuery" (Some ctx_type) [GNamed 3]; TVar T; TFunc "QueryArray" (Some ctx_type) [GSlice str_type];
   TFunc "DefaultQuery" (Some ctx_type) [str_type]].
Definition list_tag : ex := ELit 20 true (quoted "tag").
Definition list_sort : list ex := [ELit 21 true (quoted "sort"); ELit 22 true (quoted "name")].
Definition list_body : ex :=
  EOther [EOther [ECall (ESel (def_ 0 "c") 1 "ShouldBindQuery") [sale_ref]];
          EOther [ECall (ESel (def_ 0 "c") 3 "QueryArray") [list_tag]];
          EOther [ECall (ESel (def_ 0 "c") 4 "DefaultQuery") list_sort]].
Definition list_pkg (path : string) (scope : string -> option file) : pinfo :=
  mkPkg path scope (fun id => if Nat.ltb id 5 then Some id else None) (fun id => if Nat.eqb id 30 then Some ctx_type else None) [].
Definition listing (T : gtype) : code :=
  mkCode (fun f => mkFile 0 [("", 1)] (one_of "List" (Some (DkFunc 0))))
    (fun p => match p with 0 => list_pkg "app" (one_of "List" 0) | _ => list_pkg ginPath (fun _ => None) end)
    (fun o => nth o (list_objects T) (TVar GOther)) (fun _ => None) (fun o => match o with 1 | 3 | 4 => 1 | _ => 0 end)
    list_types (fun g => nth g [mkFn "" [mkPar ["c"] 30] list_body] (mkFn "" [] (EOther []))).

Definition list_packages : string -> option (list (string * file * list fdecl)) :=
  one_of "app" [("/src/app/list.go", 0, [mkFD "List" (fun _ => 10%Z) 0 []])].
Definition list_program (T : gtype) (n : nat) (main : string) : program := program_of (listing T) n list_packages (fun s => s).
Definition list_router : list GinRoute := [mkGin "GET" "/items" "app.List" "/src/app/list.go" 10].
Definition list_service : Service :=
  New [WithGinInput (Some list_router); WithConfig (Some shop_config); WithJSONOutput "routes"; WithOpenAPIOutput "api.yaml"; WithJSONOutput "later"].
Definition list_env (T : gtype) (n : nat) : Env :=
  mkEnv no_fault (fun _ _ => Some "list.go") (fun _ _ => false)
    (fun _ main routes comps => GinParseRoutes 9 (list_program T n main) routes comps) (fun _ _ => None) plain_orders.

(** *** What the source says *)
Section List.
  Context (T : gtype).
  Lemma list_context : gin_context (listing T) ctx_type.
  Proof. exists 0. repeat split. Qed.
  Lemma list_var f : typed (listing T) f (id_ 2 "v") T.
  Proof. eapply ty_var with (o := 2); [constructor; destruct f; reflexivity|reflexivity]. Qed.
  Lemma list_addr f : typed (listing T) f sale_ref (GPointer T).
  Proof. apply ty_addr, list_var. Qed.
  Lemma list_kept : builtins_kept (listing T) 0 sale_ref.
  Proof. apply no_builtins; intros id name obj W; dig W; intros [E|[E|[E|[]]]]; discriminate. Qed.
  Lemma tag_text f : text_of (listing T) f list_tag "tag".
  Proof. exists (quoted "tag"). split; [constructor|]. split; [split; reflexivity|reflexivity]. Qed.
  Lemma sort_text f : text_of (listing T) f (ELit 21 true (quoted "sort")) "sort".
  Proof. exists (quoted "sort"). split; [constructor|]. split; [split; reflexivity|reflexivity]. Qed.

  Lemma list_says n regs r : TypeResult n list_types true (Some "app") "" T = (regs, Ok r) ->
    says (listing T) no_home "c" 0 list_body [EQuery (bound_to (ParseResultToField r)); EQuery (str_param "tag" true false)] regs false.
  Proof.
    intros E. apply says_node; [no_call|]. cbn [parts]. rewrite <- (app_nil_r regs).
    eapply (sa_cons (listing T) no_home "c" 0 _ [EQuery (bound_to (ParseResultToField r))] regs _ _ _ [EQuery (str_param "tag" true false)] []).
    - apply says_node; [no_call|]. apply sa_one. rewrite <- (app_nil_r regs).
      eapply (says_context (listing T) no_home "c" 0 _ _ 1 "ShouldBindQuery" ctx_type [GNamed 3] [EQuery (bound_to (ParseResultToField r))] regs [] []).
      + intros (id & obj & [X|[]]); discriminate.
      + constructor. reflexivity.
      + reflexivity.
      + exact list_context.
      + apply (cc_bind (listing T) 0 "ShouldBindQuery" (fun f => [EQuery (bound_to f)])); [cbn; tauto|].
        exists (GPointer T), (S n), r. split; [apply list_addr|]. split; [repeat constructor|]. split; [apply list_kept|].
        split; [|reflexivity]. rewrite result_pointer. exact E.
      + silent.
    - eapply (sa_cons (listing T) no_home "c" 0 _ [EQuery (str_param "tag" true false)] [] _ _ _ [] []).
      + apply says_node; [no_call|]. apply sa_one.
        eapply (says_context (listing T) no_home "c" 0 _ _ 3 "QueryArray" ctx_type [GSlice str_type] [EQuery (str_param "tag" true false)] [] [] []).
        * intros (id & obj & [X|[]]); discriminate.
        * constructor. reflexivity.
        * reflexivity.
        * exact list_context.
        * apply (cc_read (listing T) 0 "QueryArray" (fun n => EQuery (str_param n true false)) list_tag [] "tag"); [cbn; tauto|apply tag_text].
        * silent.
      + apply sa_one. apply says_node; [no_call|]. apply sa_one.
        eapply (says_context (listing T) no_home "c" 0 _ _ 4 "DefaultQuery" ctx_type [str_type] [] [] [] []).
        * intros (id & obj & [X|[X|[]]]); discriminate.
        * constructor. reflexivity.
        * reflexivity.
        * exact list_context.
        * apply cc_other. cbn. intuition discriminate.
        * silent.
  Qed.

  Lemma list_called k nm args results : nth_error [("ShouldBindQuery", 1, [sale_ref]); ("QueryArray", 3, [list_tag]); ("DefaultQuery", 4, list_sort)] k = Some (nm, results, args) ->
    calls (listing T) no_home "c" 0 list_body nm args 0.
  Proof.
    intros H. destruct k as [|[|[|k]]]; cbn in H; [| | |destruct k; discriminate H]; injection H as <- <- <-.
    - eapply ca_part; [left; reflexivity|]. eapply ca_part; [left; reflexivity|].
      eapply (ca_here (listing T) no_home "c" 0 _ _ 1 "ShouldBindQuery" ctx_type [GNamed 3]); [intros (id & obj & [X|[]]); discriminate|constructor; reflexivity|reflexivity|exact list_context].
    - eapply ca_part; [right; left; reflexivity|]. eapply ca_part; [left; reflexivity|].
      eapply (ca_here (listing T) no_home "c" 0 _ _ 3 "QueryArray" ctx_type [GSlice str_type]); [intros (id & obj & [X|[]]); discriminate|constructor; reflexivity|reflexivity|exact list_context].
    - eapply ca_part; [right; right; left; reflexivity|]. eapply ca_part; [left; reflexivity|].
      eapply (ca_here (listing T) no_home "c" 0 _ _ 4 "DefaultQuery" ctx_type [str_type]); [intros (id & obj & [X|[X|[]]]); discriminate|constructor; reflexivity|reflexivity|exact list_context].
  Qed.
  Lemma list_reads : reads_query (listing T) no_home "c" 0 list_body "tag" (GSlice str_type).
  Proof. exists "QueryArray", list_tag, [], 0. split; [now apply (list_called 1) with (results := 3)|]. split; [cbn; tauto|apply tag_text]. Qed.
  Lemma list_binds : binds_query (listing T) no_home "c" 0 list_body (GPointer T).
  Proof. exists "ShouldBindQuery", sale_ref, [], 0. split; [now apply (list_called 0) with (results := 1)|]. split; [cbn; tauto|apply list_addr]. Qed.

  Ltac inside W := apply within_inv in W; destruct W as [->|W];
    [|let p := fresh in let I := fresh in destruct W as (p & I & W); cbn in I; repeat (destruct I as [<-|I]; [inside W|]); try destruct I].
  Lemma list_calls name args f0 : calls (listing T) no_home "c" 0 list_body name args f0 ->
    (name = "ShouldBindQuery" /\ args = [sale_ref] \/ name = "QueryArray" /\ args = [list_tag] \/ name = "DefaultQuery" /\ args = list_sort) /\ f0 = 0.
  Proof.
    assert (Q : forall e, (forall x, within x e -> forall fn args, x <> ECall fn args) -> forall f, ~ calls (listing T) no_home "c" f e name args f0).
    { intros e H f C. assert (X : exists fn ar, within (ECall fn ar) e).
      { clear - C. induction C as [? ? fn ar|? ? p e ? ? ? I C IH|? ? fn ar]; [exists fn, ar; constructor| |exists fn, ar; constructor].
        destruct IH as (fn & ar & W). exists fn, ar. econstructor; eauto. }
      destruct X as (fn & ar & W). exact (H _ W fn ar eq_refl). }
    assert (Here : forall fn ar nm o' results, fn = ESel (def_ 0 "c") o' nm -> co_obj (listing T) o' = TFunc nm (Some ctx_type) results -> (o' < 5) ->
       (forall id obj, ~ In (EIdent id "c" obj) ar) -> (forall p, In p (fn :: ar) -> forall x, within x p -> forall fn args, x <> ECall fn args) ->
       calls (listing T) no_home "c" 0 (ECall fn ar) name args f0 -> name = nm /\ args = ar /\ f0 = 0).
    { intros fn ar nm o' results -> Eo L NC NP C. inversion C as [? ? ? ? o nm' recv rs M D E G|? ? p ? ? ? ? I C'|? ? ? ? ? ? ? ? ? ? M]; subst.
      - inversion D as [|? ? ? ? Ob]; subst. unfold object_at in Ob. cbn in Ob. destruct o' as [|[|[|[|[|o']]]]]; try lia; injection Ob as <-; cbn in E, Eo; rewrite E in Eo; try discriminate; injection Eo as -> -> ->; auto.
      - exfalso. exact (Q p (NP p I) 0 C').
      - exfalso. destruct M as (id & obj & I). exact (NC _ _ I). }
    intros C. inversion C as [|? ? p ? ? ? ? I C'|]; subst. cbn in I. destruct I as [<-|[<-|[<-|[]]]];
      (inversion C' as [|? ? p ? ? ? ? I C2|]; subst; cbn in I; destruct I as [<-|[]]).
    - destruct (Here _ [sale_ref] "ShouldBindQuery" 1 [GNamed 3] eq_refl eq_refl) as (-> & -> & ->); auto; try lia.
      + intros id obj [X|[]]; discriminate.
      + intros p [<-|[<-|[]]] x W; inside W; discriminate.
    - destruct (Here _ [list_tag] "QueryArray" 3 [GSlice str_type] eq_refl eq_refl) as (-> & -> & ->); auto; try lia.
      + intros id obj [X|[]]; discriminate.
      + intros p [<-|[<-|[]]] x W; inside W; discriminate.
    - destruct (Here _ list_sort "DefaultQuery" 4 [str_type] eq_refl eq_refl) as (-> & -> & ->); auto; try lia.
      + intros id obj [X|[X|[]]]; discriminate.
      + intros p [<-|[<-|[<-|[]]]] x W; inside W; discriminate.
  Qed.
  Lemma list_object f id o : object_at (listing T) f id o -> o = id /\ id < 5.
  Proof.
    unfold object_at. assert (E : pi_objectOf (co_pkg (listing T) (pkg_of (listing T) f)) id = if Nat.ltb id 5 then Some id else None) by reflexivity.
    rewrite E. destruct (Nat.ltb_spec id 5); [|discriminate]. intros X. injection X as <-. auto.
  Qed.
  Lemma list_binds_only T' : binds_query (listing T) no_home "c" 0 list_body T' -> T' = GPointer T.
  Proof.
    intros (name & a & rest & f0 & C & D & Ty). apply list_calls in C as ([(_ & E)|[(-> & _)|(-> & _)]] & ->); [|exfalso; cbn in D; intuition discriminate|exfalso; cbn in D; intuition discriminate].
    injection E as -> ->. inversion Ty as [e o t X|e o v t X| | | |x t X| | | | | | | | | | | |]; subst; try (inversion X; fail).
    f_equal. clear Ty. inversion X as [e o t' D' E|e o v t' D' E| | | | | | | | | | | | | | | |]; subst; inversion D' as [? ? ? ? Ob|]; subst;
      apply list_object in Ob as (-> & _); cbn in E; congruence.
  Qed.
  Lemma list_documented id : documented (listing T) id -> reach list_types true T (GNamed id).
  Proof.
    intros (T' & (g & f & fn & args & o & name & recv & results & a & x & W & D & Eo & _ & Ia & Wx & A) & R).
    assert (WB : within (ECall fn args) list_body).
    { destruct g as [|g]; [exact W|]. assert (E : co_func (listing T) (S g) = mkFn "" [] (EOther [])) by (destruct g; reflexivity).
      rewrite E in W. apply within_inv in W as [W|(p & [] & _)]; discriminate. }
    assert (AR : args = [sale_ref] \/ args = [list_tag] \/ args = list_sort).
    { remember (ECall fn args) as c. clear - WB Heqc. inside WB; try discriminate; injection Heqc as _ ->; auto. }
    assert (TY : forall j, j <> 30 -> pi_typeOf (co_pkg (listing T) (pkg_of (listing T) f)) j = None).
    { intros j Hj. change (pi_typeOf (co_pkg (listing T) (pkg_of (listing T) f)) j) with (if Nat.eqb j 30 then Some ctx_type else None). destruct (Nat.eqb_spec j 30); congruence. }
    assert (TT : T' = T).
    { assert (XX : x = sale_ref \/ x = id_ 2 "v" \/ x = list_tag \/ x = ELit 21 true (quoted "sort") \/ x = ELit 22 true (quoted "name")).
      { destruct AR as [-> |[-> | ->]]; [destruct Ia as [<-|[]]|destruct Ia as [<-|[]]|destruct Ia as [<-|[<-|[]]]]; clear - Wx; inside Wx; auto. }
      assert (ND : forall nm q, ~ In (nm, Some q) (pi_defs (co_pkg (listing T) (pkg_of (listing T) f)))) by (intros nm q []).
      inversion A as [e o' T2 D2 H2|id' nm ob o' T2 No I2 H2|e id' T2 E2 H2]; subst.
      - destruct XX as [-> |[-> |[-> |[-> | ->]]]]; inversion D2 as [? ? ? ? Ob|? ? ? ? Ob]; subst; apply list_object in Ob as (-> & _); cbn in H2; auto; contradiction.
      - exfalso. eapply ND; eauto.
      - exfalso. destruct XX as [-> |[-> |[-> |[-> | ->]]]]; destruct E2 as [(l & E)|[(l & E)|(s & y & E)]]; try discriminate; injection E as <-; rewrite TY in H2 by discriminate; discriminate. }
    now subst T'.
  Qed.
End List.

(** *** A filter *)
Definition filter_type : gtype := GNamed 1.
Definition filter_fields : list (gfield gtype) := match te_under list_types 1 with GStruct fs => fs | _ => [] end.
Definition filter_value : writer Result := TypeResult 9 list_types true (Some "app") "" filter_type.
Lemma filter_reach id : reach list_types true filter_type (GNamed id) -> In id [1; 2].
Proof.
  assert (H : forall T X, reach list_types true T X -> In T [GNamed 1; GNamed 2; te_under list_types 1; str_type; GBasic "int" KInt; GPointer (GBasic "int" KInt)] ->
     forall id, X = GNamed id -> In id [1; 2]).
  { induction 1 as [T|T Y X P R IH]; intros I j E.
    - subst T. cbn in I. repeat (destruct I as [I|I]; [first [discriminate I|injection I as <-; cbn; tauto]|]). destruct I.
    - apply IH; auto. clear IH R E. cbn in I.
      repeat (destruct I as [<-|I]; [inversion P as [| | | | |fs f If Ex|]; subst; try (cbn; tauto);
        cbn in If; repeat (destruct If as [<-|If]; [first [discriminate Ex|cbn; tauto]|]); destruct If|]). destruct I. }
  intros R. exact (H _ _ R (or_introl eq_refl) id eq_refl).
Qed.
Lemma filter_named main id : temp_main main -> In id [1; 2] -> te_pkg list_types id = Some "app" /\ spoken main "app" = "app".
Proof.
  intros TM I. split.
  - cbn in I. repeat (destruct I as [<-|I]; [reflexivity|]). destruct I.
  - unfold spoken. destruct (String.eqb_spec "app" main) as [E|_]; [rewrite <- E in TM; vm_compute in TM; discriminate TM|reflexivity].
Qed.
Lemma filter_transparent main : temp_main main -> transparent list_types [] main "form" filter_type.
Proof.
  intros TM. split; [repeat constructor|]. intros id R. apply filter_reach in R. destruct (filter_named main id TM R) as (Hp & Sp).
  assert (PF : forall name v T, name <> "" -> flat T -> Lookup ("form:" ++ quoted v) "form" = Some v ->
     (forall k, In k BindingTags -> k <> "form" -> Lookup ("form:" ++ quoted v) k = None) -> (before_comma v = "-" -> v = "-") ->
     plain_field "form" (stamp name ("form:" ++ quoted v) T)).
  { intros name v T N F L NL B. split; auto. cbn [gf_embedded stamp gf_type gf_tag]. split; auto. split.
    - intros k x Ik H. apply lookup_spec in H. destruct (string_dec k "form"); auto. rewrite NL in H; auto. discriminate.
    - exists v. split; [now apply lookup_spec|]. split; auto. discriminate. }
  assert (NL : forall v, In v ["name"; "min"; "since"; "-"] -> forall k, In k BindingTags -> k <> "form" -> Lookup ("form:" ++ quoted v) k = None).
  { intros v Iv k Ik N. cbn in Iv, Ik. repeat (destruct Ik as [<-|Ik]; [try (now elim N); repeat (destruct Iv as [<-|Iv]; [reflexivity|]); destruct Iv|]). destruct Ik. }
  exists "app". split; auto. rewrite Sp. split; [cbn in R; repeat (destruct R as [<-|R]; [discriminate|]); destruct R|].
  right. cbn in R. destruct R as [<-|[<-|[]]]; (split; [reflexivity|]); (split; [|discriminate]).
  - cbn [te_under list_types nth plain_definition]. split; [|split].
    + intros f I _. destruct I as [<-|[<-|[<-|[<-|[]]]]]; (apply PF; [discriminate| |reflexivity|apply NL; cbn; tauto|try discriminate; auto]).
      * do 2 econstructor. cbn. tauto.
      * do 3 econstructor. cbn. tauto.
      * repeat constructor.
      * do 2 econstructor. cbn. tauto.
    + right. eexists. split; [left; reflexivity|auto].
    + apply members_distinct. repeat constructor; cbn; intuition discriminate.
  - exists "string". cbn. tauto.
Qed.
Lemma filter_struct main : temp_main main -> query_struct list_types [] main filter_type filter_fields.
Proof.
  intros TM. exists 1, "app". split; [reflexivity|]. split; [reflexivity|]. split; [reflexivity|].
  split; [now rewrite (proj2 (filter_named main 1 TM (or_introl eq_refl)))|].
  intros f I _. cbn in I. repeat (destruct I as [<-|I]; [reflexivity|]). destruct I.
Qed.
Lemma filter_distinct main : temp_main main -> distinct_types list_types main (documented (listing filter_type)).
Proof.
  intros TM. split.
  - intros id p U _ Hp. apply list_documented, filter_reach in U. rewrite (proj1 (filter_named main id TM U)) in Hp. injection Hp as <-. clear TM. cbn in U.
    split; [discriminate|]. repeat (destruct U as [<-|U]; [split; [discriminate|]; split; [cbn; intuition discriminate|];
      split; [split; [discriminate|reflexivity]|]; intros fs f E I; try discriminate E; injection E as <-; cbn in I; repeat (destruct I as [<-|I]; [discriminate|]); destruct I|]). destruct U.
  - intros i j p q U V _ _ Hp Hq S N. apply list_documented, filter_reach in U, V. clear TM. cbn in U, V.
    repeat (destruct U as [<-|U]; [repeat (destruct V as [<-|V]; [first [reflexivity|discriminate N]|]); destruct V|]). destruct U.
Qed.
Lemma filter_nameable main : temp_main main -> nameable list_types main (documented (listing filter_type)) (fun _ => 0).
Proof.
  intros TM. split.
  - intros i j p q U V _ _ Hp Hq L N. apply list_documented, filter_reach in U, V. exfalso. apply N.
    rewrite (proj1 (filter_named main i TM U)) in Hp. rewrite (proj1 (filter_named main j TM V)) in Hq. congruence.
  - intros i p U _ Hp. apply list_documented, filter_reach in U. destruct (filter_named main i TM U) as (Hp' & Sp).
    rewrite Hp in Hp'. injection Hp' as ->. rewrite Sp. clear Sp TM Hp. cbn in U.
    repeat (destruct U as [<-|U]; [split; [reflexivity|]; vm_compute; repeat constructor; intuition discriminate|]). destruct U.
Qed.
Lemma list_handled T n main i : i = nth 0 list_router (mkGin "" "" "" "" 0) -> handler_of (list_program T n main) (entry_route i "list.go") 0 0 (Some "List").
Proof.
  intros ->. exists "app", "List", [], [("/src/app/list.go", 0, [mkFD "List" (fun _ => 10%Z) 0 []])], [], "/src/app/list.go", [],
    (mkFD "List" (fun _ => 10%Z) 0 []), [], [].
  split; [reflexivity|]. split; [reflexivity|]. split; [now repeat constructor|]. split; [constructor|].
  split; [reflexivity|]. split; [reflexivity|]. split; [reflexivity|]. split; [intros x []|].
  split; [reflexivity|]. split; [intros d' [[]|[]]|]. left. repeat split.
Qed.

Example C72_nontrivial :
  let co := listing filter_type in
  let i := nth 0 list_router (mkGin "" "" "" "" 0) in
  no_named_pointers co /\ scopes_agree co no_home /\ go_names co /\
  first_context co 0 (fs_params (co_func co 0)) "c" /\ (forall a, In a (fs_params (co_func co 0)) -> sane_param co 0 a) /\
  (exists es regs, says co no_home "c" 0 (fs_body (co_func co 0)) es regs false) /\
  sane ex_world /\ kind_at (work_dir list_service ex_world) (w_fs ex_world) = Some KDir /\ fresh list_service /\
  (forall n, analyses (list_env filter_type n) 9 (list_program filter_type n)) /\ served_once list_service /\
  (forall i, offered list_service i -> gin_path (gi_path i)) /\
  sv_memo list_service = None /\ w_names ex_world = [] /\
  (exists before after, sv_outputs list_service = (before ++ api_output :: after)%list /\ before <> [] /\ after <> [] /\ Forall no_document before /\
     left_alone list_service ex_world after (document_place list_service ex_world "api.yaml")) /\
  offered list_service i /\ plain_method (gi_method i) /\
  (forall n main, handler_of (list_program filter_type n main) (entry_route i "list.go") 0 0 (Some "List")) /\
  (forall main, temp_main main -> distinct_types (co_types co) main (documented co) /\ nameable (co_types co) main (documented co) (fun _ => 0)) /\
  named_mappings (sv_customTypes list_service) /\
  reads_query co no_home "c" 0 (fs_body (co_func co 0)) "tag" (GSlice str_type) /\
  binds_query co no_home "c" 0 (fs_body (co_func co 0)) (GPointer filter_type) /\
  (forall main T', temp_main main -> binds_query co no_home "c" 0 (fs_body (co_func co 0)) T' ->
     transparent (co_types co) (sv_customTypes list_service) main "form" T' /\ query_struct (co_types co) (sv_customTypes list_service) main T' filter_fields) /\
  (exists fd, In fd filter_fields /\ member "form" fd "since" /\ gf_type fd = GNamed 2) /\
  exists s' w' yaml d op, Parse (list_env filter_type 9) list_service ex_world = (Ok tt, s', w') /\ temp_main (sv_tempMain s') /\
    kind_at (document_place list_service ex_world "api.yaml") (w_fs w') = Some (KFile (CDocument yaml d)) /\
    operation_at d "/items" "GET" op /\
    map (fun q => (pa_name q, pa_in q, pa_schema q)) (op_parameters op) =
      [("min", "query", typeSchema "integer" "int32"); ("name", "query", typeSchema "string" "");
       ("since", "query", refSchema "#/components/schemas/app.Date"); ("tag", "query", arraySchema (typeSchema "string" "") 0)] /\
    map fst (d_schemas d) = ["app.Date"; "app.Filter"].
Proof.
  cbn zeta. split. { intros id t. cbn. destruct id as [|[|[|[|[|[|[|id]]]]]]]; discriminate. }
  split; [intros o f name g H; discriminate H|].
  split. { intros id. cbn. destruct id as [|[|[|[|[|[|[|id]]]]]]]; (split; [reflexivity|intros p E; first [discriminate E|injection E as <-; reflexivity]]). }
  split. { exists [], (mkPar ["c"] 30), [], []. split; [reflexivity|]. split; [exists ctx_type; split; [reflexivity|exact (list_context filter_type)]|]. split; [reflexivity|intros b []]. }
  split. { intros a [<-|[]]. split; [intros (id & H & N)|intros k H]; vm_compute in H; [|discriminate H]. injection H as <-. discriminate N. }
  split.
  { let s := eval vm_compute in (snd filter_value) in match s with Ok ?r => do 2 eexists; apply (list_says filter_type 9 (fst filter_value) r) end.
    vm_compute. reflexivity. }
  split; [exact ex_sane|]. split; [reflexivity|]. split; [repeat split|]. split; [intros n m; split; [reflexivity|reflexivity]|].
  split. { unfold served_once. cbn. repeat constructor; cbn; intuition discriminate. }
  split. { intros i (I & _). cbn in I. destruct I as [<-|[]]; repeat constructor. }
  split; [reflexivity|]. split; [reflexivity|].
  split.
  { exists [mkOutput "json" (GeJSON "routes") [("filePath", VStr "routes")]], [mkOutput "json" (GeJSON "later") [("filePath", VStr "later")]].
    split; [reflexivity|]. split; [discriminate|]. split; [discriminate|]. split; [constructor; [intros x; discriminate|constructor]|]. split; [|split].
    - intros o [<-|[]]. vm_compute. discriminate.
    - intros (r & E). vm_compute in E. discriminate E.
    - discriminate. }
  split; [split; [cbn; auto|intros d []]|]. split; [split; [cbn; auto|discriminate]|].
  split; [intros n main; now apply list_handled|].
  split; [intros main TM; split; [now apply filter_distinct|now apply filter_nameable]|].
  split; [exact predefined_named|].
  split; [apply list_reads|]. split; [apply list_binds|].
  split. { intros main T' TM H. apply list_binds_only in H as ->. destruct (filter_transparent main TM) as (V & R). split.
           - split; [repeat constructor|]. intros id X. apply R. inversion X as [|y z P X']; subst. inversion P; subst. exact X'.
           - exact (filter_struct main TM). }
  split. { exists (stamp "Since" ("form:" ++ quoted "since") (GNamed 2)). split; [cbn; tauto|]. split; [|reflexivity].
           split; [reflexivity|]. split; [reflexivity|]. exists "since". split; [now apply lookup_spec|reflexivity]. }
  pose (X := Parse (list_env filter_type 9) list_service ex_world).
  exists (snd (fst X)), (snd X).
  assert (Y : fst (fst X) = Ok tt) by (vm_compute; reflexivity).
  assert (TM : temp_main (sv_tempMain (snd (fst X)))) by (vm_compute; reflexivity).
  assert (Z : exists yaml d op, kind_at (document_place list_service ex_world "api.yaml") (w_fs (snd X)) = Some (KFile (CDocument yaml d)) /\
     operation_at d "/items" "GET" op /\
     map (fun q => (pa_name q, pa_in q, pa_schema q)) (op_parameters op) =
      [("min", "query", typeSchema "integer" "int32"); ("name", "query", typeSchema "string" "");
       ("since", "query", refSchema "#/components/schemas/app.Date"); ("tag", "query", arraySchema (typeSchema "string" "") 0)] /\
     map fst (d_schemas d) = ["app.Date"; "app.Filter"]).
  { do 3 eexists. split; [vm_compute; reflexivity|]. split; [|split].
    - eexists. split; [vm_compute; reflexivity|]. vm_compute; reflexivity.
    - vm_compute; reflexivity.
    - vm_compute; reflexivity. }
  destruct Z as (yaml & d & op & Z). exists yaml, d, op. split; [|split; [exact TM|exact Z]].
  fold X. rewrite <- Y. now destruct X as ((? & ?) & ?).
Qed.

(** ** Refuted *)
(** What a run over the handler that binds [T] writes about GET /items. *)
Definition listed (T : gtype) (op : Operation) : Prop :=
  exists s' w' yaml d, Parse (list_env T 9) list_service ex_world = (Ok tt, s', w') /\
    kind_at (document_place list_service ex_world "api.yaml") (w_fs w') = Some (KFile (CDocument yaml d)) /\
    operation_at d "/items" "GET" op.

(** A member that gin refuses to do without is documented as optional. *)
Theorem C72_required_refuted : exists co fs fd op,
  co = listing (GNamed 5) /\ listed (GNamed 5) op /\
  binds_query co no_home "c" 0 (fs_body (co_func co 0)) (GPointer (GNamed 5)) /\ te_under (co_types co) 5 = GStruct fs /\
  In fd fs /\ member "form" fd "q" /\ tag_has (gf_tag fd) "binding" "required" /\
  (exists s, has_query op false "q" s) /\ forall s, ~ has_query op true "q" s.
Proof.
  pose (X := Parse (list_env (GNamed 5) 9) list_service ex_world).
  assert (Y : fst (fst X) = Ok tt) by (vm_compute; reflexivity).
  assert (Z : exists op yaml d, kind_at (document_place list_service ex_world "api.yaml") (w_fs (snd X)) = Some (KFile (CDocument yaml d)) /\
     operation_at d "/items" "GET" op /\ map (fun q => (pa_name q, pa_in q, pa_required q)) (op_parameters op) = [("q", "query", false); ("tag", "query", false)]).
  { do 3 eexists. split; [vm_compute; reflexivity|]. split; [eexists; split; vm_compute; reflexivity|vm_compute; reflexivity]. }
  destruct Z as (op & yaml & d & K & O & M). eexists (listing (GNamed 5)), _, _, op. split; [reflexivity|].
  split. { exists (snd (fst X)), (snd X), yaml, d. split; [fold X; rewrite <- Y; now destruct X as ((? & ?) & ?)|]. split; assumption. }
  split; [apply list_binds|]. split; [reflexivity|]. split; [left; reflexivity|].
  split. { split; [reflexivity|]. split; [reflexivity|]. exists "q". split; [now apply lookup_spec|reflexivity]. }
  split; [now apply lookup_spec|].
  destruct (op_parameters op) as [|q [|q' [|]]] eqn:E; try discriminate M. cbn in M. injection M as Q1 Q2 Q3 R1 R2 R3. split.
  - exists (pa_schema q), q. rewrite E. split; [left; reflexivity|]. auto.
  - intros s (x & I & _ & _ & H & _). rewrite E in I. destruct I as [<-|[<-|[]]]; congruence.
Qed.

(** Nothing is said of the members of a struct with an embedded field. *)
Theorem C72_embedded_refuted : exists co fs fd op,
  co = listing (GNamed 4) /\ listed (GNamed 4) op /\
  binds_query co no_home "c" 0 (fs_body (co_func co 0)) (GPointer (GNamed 4)) /\ te_under (co_types co) 4 = GStruct fs /\
  In fd fs /\ member "form" fd "page" /\ gf_embedded fd = false /\ forall b s, ~ has_query op b "page" s.
Proof.
  pose (X := Parse (list_env (GNamed 4) 9) list_service ex_world).
  assert (Y : fst (fst X) = Ok tt) by (vm_compute; reflexivity).
  assert (Z : exists op yaml d, kind_at (document_place list_service ex_world "api.yaml") (w_fs (snd X)) = Some (KFile (CDocument yaml d)) /\
     operation_at d "/items" "GET" op /\ map pa_name (op_parameters op) = ["tag"]).
  { do 3 eexists. split; [vm_compute; reflexivity|]. split; [eexists; split; vm_compute; reflexivity|vm_compute; reflexivity]. }
  destruct Z as (op & yaml & d & K & O & M). eexists (listing (GNamed 4)), _, _, op. split; [reflexivity|].
  split. { exists (snd (fst X)), (snd X), yaml, d. split; [fold X; rewrite <- Y; now destruct X as ((? & ?) & ?)|]. split; assumption. }
  split; [apply list_binds|]. split; [reflexivity|]. split; [right; left; reflexivity|].
  split. { split; [reflexivity|]. split; [reflexivity|]. exists "page". split; [now apply lookup_spec|reflexivity]. }
  split; [reflexivity|]. intros b s (x & I & _ & N & _). apply (in_map pa_name) in I. rewrite M, N in I. destruct I as [I|[]]. discriminate I.
Qed.

(** A parameter read with a default is not documented at all. *)
Theorem C72_default_refuted : exists co a rest op,
  co = listing filter_type /\ listed filter_type op /\
  calls co no_home "c" 0 (fs_body (co_func co 0)) "DefaultQuery" (a :: rest) 0 /\ text_of co 0 a "sort" /\
  forall b s, ~ has_query op b "sort" s.
Proof.
  pose (X := Parse (list_env filter_type 9) list_service ex_world).
  assert (Y : fst (fst X) = Ok tt) by (vm_compute; reflexivity).
  assert (Z : exists op yaml d, kind_at (document_place list_service ex_world "api.yaml") (w_fs (snd X)) = Some (KFile (CDocument yaml d)) /\
     operation_at d "/items" "GET" op /\ map pa_name (op_parameters op) = ["min"; "name"; "since"; "tag"]).
  { do 3 eexists. split; [vm_compute; reflexivity|]. split; [eexists; split; vm_compute; reflexivity|vm_compute; reflexivity]. }
  destruct Z as (op & yaml & d & K & O & M). eexists (listing filter_type), _, _, op. split; [reflexivity|].
  split. { exists (snd (fst X)), (snd X), yaml, d. split; [fold X; rewrite <- Y; now destruct X as ((? & ?) & ?)|]. split; assumption. }
  split; [exact (list_called filter_type 2 _ _ _ eq_refl)|]. split; [apply sort_text|].
  intros b s (x & I & _ & N & _). apply (in_map pa_name) in I. rewrite M, N in I. cbn in I. intuition discriminate.
Qed.
Print Assumptions C72_required_refuted.
Print Assumptions C72_embedded_refuted.
Print Assumptions C72_default_refuted.
