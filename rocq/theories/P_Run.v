(** What a run with one router comes down to, from the source of a handler to the document. *)
From Coq Require Import List String Ascii Bool ZArith Arith Lia.
From Verif Require Import BaseStr BaseMap M_Types M_Tags M_Collect M_Paths M_TypeTrav M_OpenAPI M_Parse M_Clean M_FS M_Service S_Collect S_OpenAPI S_Parse S_Paths S_Service S_Cache S_Files S_TypeTrav S_Whole.
From Verif Require Import M_Resolve S_Resolve P_Resolve P_Fields P_FS P_Path P_Frame P_Mono P_Temp P_Whole P_Told S_Names P_Parse3 P_Parse4 P_Comps
  S_Typed P_Typed S_Sends P_Sends P_Sent Props_Files Props_Names Props_OpenAPI Props_Parse Props_Whole Props_Resolve Props_Source.
Import ListNotations.
Local Open Scope string_scope.

Lemma run_document : forall co home packages camel f g ctx es regs last,
  no_named_pointers co -> scopes_agree co home -> go_names co ->
  first_context co f (fs_params (co_func co g)) ctx -> ctx <> "" -> (forall a, In a (fs_params (co_func co g)) -> sane_param co f a) ->
  says co home ctx f (fs_body (co_func co g)) es regs last ->
  exists N, forall n, N <= n ->
  forall env fuel s w s' w' input before o after x i file id,
  sane w -> kind_at (work_dir s w) (w_fs w) = Some KDir -> fresh s ->
  analyses env fuel (fun main => program_of co n (packages main) camel) -> served_once s ->
  valid_orders (e_orders env) -> (forall i, offered s i -> gin_path (gi_path i)) ->
  sv_inputs s = [input] -> in_parse input = PaGin -> sv_memo s = None -> w_names w = [] ->
  sv_outputs s = (before ++ o :: after)%list -> Forall no_document before ->
  out_generate o = GeOpenAPI x -> left_alone s w after (document_place s w x) ->
  offered s i -> plain_method (gi_method i) -> e_rel env ("/" ++ join "/" (w_cwd w)) (gi_file i) = Some file ->
  (forall main, main = "" \/ main = sv_tempMain s' -> handler_of (program_of co n (packages main) camel) (entry_route i file) f g id) ->
  Parse env s w = (Ok tt, s', w') ->
  exists yaml d op config routes comps names l,
    kind_at (document_place s w x) (w_fs w') = Some (KFile (CDocument yaml d)) /\
    operation_at d (openapi_path (gi_path i)) (gi_method i) op /\
    own_comps co comps /\ incl (register l regs) comps /\
    generated (e_orders env) (sv_customTypes s) config routes (cleanComponents (sv_tempMain s') comps) [] d names /\
    distinct_routes routes /\ (forall r, In r routes -> gin_path (rt_path r)) /\
    In (cleanRoute (sv_tempMain s') (S_Parse.analysed (fs_doc (co_func co g)) id es (entry_route i file))) routes /\
    S_OpenAPI.documents d (cleanRoute (sv_tempMain s') (S_Parse.analysed (fs_doc (co_func co g)) id es (entry_route i file))) op.
Proof.
  intros co home packages camel f g ctx es regs last P Ag GN Hc Hne Hs S.
  destruct (source_documents co home P Ag _ _ _ _ _ _ S) as (N & HN). exists N.
  intros n L env fuel s w s' w' input before o after x i file id SA HD FR AN ON VO GP EI EP ME WN EO NB GO LA OF PM RE HO E.
  destruct (whole_run env s w SA HD fuel _ before o after x s' w' FR AN ON EO GO LA E)
    as (rs & routes & main & comps & d & custom & config & names0 & names & CR & SI & AL & _ & TM & EM & G & K & SK).
  destruct (SK NB) as (EC & EN). rewrite ME in EC. rewrite WN in EN. subst custom names0 main. clear SK. set (main := sv_tempMain s') in *.
  destruct (AL input EI EP) as (main0 & MM & EA & _). clear AL.
  destruct (AN main0) as (CU & AN0). rewrite AN0 in EA. clear AN0.
  assert (ND := created_once _ _ _ _ CR ON). assert (DR := cleaned_distinct main rs routes SI ND).
  assert (GP' : forall r, In r (cleanRoutes main routes) -> gin_path (rt_path r)).
  { intros r I. apply (cleaned_from main rs routes SI) in I as (r0 & I & -> & _).
    destruct (created_in _ _ _ _ _ CR I) as (i' & p & I1 & I2 & _ & ->). cbn. apply GP. split; auto. }
  set (prog := program_of co n (packages main0) camel) in *.
  destruct (parse_from_comps (own_comps co) (registered_type co) (fun c x H1 H2 => own_add co c x H1 H2) fuel prog CU
              (fun h => source_fine co n h GN) rs [] [] routes comps ND (own_nil co) EA) as (Ow & _ & out & EO' & F2).
  cbn [app] in EO'. subst out.
  destruct OF as (I & A0). destruct (created_has _ _ _ _ _ CR I A0) as (p & RE' & J). rewrite RE in RE'. injection RE' as <-. fold (entry_route i file) in J.
  assert (X : exists c c' r', parseRoute fuel prog (entry_route i file) c = Ok (r', c') /\ own_comps co c /\ grows c' comps /\ In r' routes).
  { clear - F2 J. induction F2 as [|a b l l' (c & c' & E1 & E2 & E3) F IH]; [destruct J|]. destruct J as [->|J]; [exists c, c', b; cbn; auto|].
    destruct (IH J) as (c1 & c2 & r' & A & B & C & D). exists c1, c2, r'. cbn. auto. }
  destruct X as (c & c' & r' & PR & _ & GR & IR).
  assert (HC := context_named co _ _ _ Hc Hs). assert (DO := HN n L).
  assert (EQ : r' = S_Parse.analysed (fs_doc (co_func co g)) id es (entry_route i file) /\ c' = register c regs).
  { destruct (parseRoute_sound prog (entry_route i file) f g id true ctx es regs last (HO main0 MM) CU HC Hne DO) as (M & HM).
    destruct (parseRoute_upto prog fuel (max fuel M) (Nat.le_max_l _ _) (entry_route i file) c) as [Y|Y]; [congruence|].
    rewrite PR, HM in Y by apply Nat.le_max_r. injection Y as -> ->. split; reflexivity. }
  destruct EQ as (-> & ->).
  assert (IC : incl (register c regs) comps) by (destruct GR as (tl & ->); apply incl_appl, incl_refl).
  assert (J' : In (cleanRoute main (S_Parse.analysed (fs_doc (co_func co g)) id es (entry_route i file))) (cleanRoutes main routes)) by now apply in_map.
  assert (PM' : rt_path (cleanRoute main (S_Parse.analysed (fs_doc (co_func co g)) id es (entry_route i file))) = gi_path i /\
                rt_method (cleanRoute main (S_Parse.analysed (fs_doc (co_func co g)) id es (entry_route i file))) = gi_method i).
  { unfold S_Parse.analysed, comment_of, with_op. destruct id, (String.eqb _ ""); split; reflexivity. }
  destruct PM' as (PM1 & PM2). destruct PM as (M1 & M2).
  destruct (C20_routes_documented_partial _ _ _ _ _ _ _ _ _ G DR GP' J') as (op & D); [congruence|congruence|].
  exists (is_yaml (openapiPath x)), d, op, config, (cleanRoutes main routes), comps, names, c.
  split; [exact K|]. split; [destruct D as (D & _); now rewrite PM1, PM2 in D|]. auto 10.
Qed.
