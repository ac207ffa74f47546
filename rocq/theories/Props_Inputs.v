(** Property theorems about runs with several inputs: C84. *)
From Coq Require Import List String Ascii Bool ZArith Arith Lia Permutation.
From Verif Require Import BaseStr BaseMap M_Types M_Collect M_Paths M_TypeTrav M_OpenAPI M_Parse M_Clean M_FS M_Service S_Collect S_Names S_OpenAPI S_Parse S_Paths S_Service S_Cache S_Files S_Whole S_Example.
From Verif Require Import P_FS P_Path P_Frame P_Mono P_Temp P_Parse P_Parse4 P_Paths P_Whole P_Told Props_Names Props_OpenAPI Props_Parse Props_Files Props_Whole.
Import ListNotations.
Local Open Scope string_scope.

(** What is recorded when a handler is analysed [k] times more after the first: the parameters of the path are
    those of the last analysis, everything else is recorded again. *)
Definition not_path (e : S_Parse.event) : bool := match e with EPath _ => false | _ => true end.
Fixpoint again (k : nat) (es : list S_Parse.event) : list S_Parse.event :=
  match k with O => es | S k => (filter not_path es ++ again k es)%list end.

Lemma paths_none es : paths_of (filter not_path es) = [].
Proof. induction es as [|[] es IH]; cbn; auto. Qed.
Lemma others_kept es : queries_of (filter not_path es) = queries_of es /\ bodies_of (filter not_path es) = bodies_of es /\
  returns_of (filter not_path es) = returns_of es /\ reqHeaders_of (filter not_path es) = reqHeaders_of es /\
  respHeaders_of (filter not_path es) = respHeaders_of es.
Proof. induction es as [|[] es (A & B & C & D & E)]; cbn; repeat split; auto; f_equal; auto. Qed.
Lemma of_app a b : paths_of (a ++ b) = (paths_of a ++ paths_of b)%list /\ queries_of (a ++ b) = (queries_of a ++ queries_of b)%list /\
  reqHeaders_of (a ++ b) = (reqHeaders_of a ++ reqHeaders_of b)%list.
Proof. unfold paths_of, queries_of, reqHeaders_of. now rewrite !flat_map_app. Qed.

Lemma analysed_twice doc op es1 es2 r : analysed doc op es2 (analysed doc op es1 r) = analysed doc op (filter not_path es1 ++ es2) r.
Proof.
  unfold analysed. rewrite recorded_app. f_equal. destruct (others_kept es1) as (A & B & C & D & E).
  unfold recorded, comment_of, with_op. destruct op, (String.eqb (FormatDoc doc) ""); cbn; now rewrite paths_none, A, B, C, D, E, app_nil_r.
Qed.

Lemma rounds_again fuel prog main f g id ctx strict doc es regs last :
  (forall m, pr_customs (prog m) = []) ->
  (forall m, m = "" \/ m = main -> fn_doc (pr_funcs (prog m) g) = doc /\ fn_ctx (pr_funcs (prog m) g) f = Ok ctx /\
     S_Parse.documents (pr_funcs (prog m)) strict ctx f (fn_body (pr_funcs (prog m) g)) es regs last) -> ctx <> "" ->
  forall k r r', (forall m, m = "" \/ m = main -> handler_of (prog m) r f g id) ->
  rounds fuel prog main (S k) r r' -> r' = analysed doc id (again k es) r.
Proof.
  intros CU H NE. induction k as [|k IH]; intros r r' HO R; inversion R as [|n m r0 c r1 c1 r2 M P R']; subst.
  - inversion R'; subst. destruct (H m M) as (<- & H2 & H3). exact (analysis_is (prog m) r f g id strict ctx es regs last fuel c r' c1 (HO m M) (CU m) H2 NE H3 P).
  - assert (E : r1 = analysed doc id es r).
    { destruct (H m M) as (<- & H2 & H3). exact (analysis_is (prog m) r f g id strict ctx es regs last fuel c r1 c1 (HO m M) (CU m) H2 NE H3 P). }
    subst r1. apply IH in R'.
    + cbn [again]. now rewrite <- analysed_twice.
    + intros m' M'. eapply handler_of_identity; [apply analysed_identity|apply HO; exact M'].
Qed.

Lemma in_again k es e : not_path e = true -> (In e (again k es) <-> In e es).
Proof.
  intros N. induction k as [|k IH]; cbn [again]; [tauto|]. rewrite in_app_iff, filter_In, IH. tauto.
Qed.
Lemma again_of k es : paths_of (again k es) = paths_of es /\
  queries_of (again k es) = List.concat (repeat (queries_of es) (S k)) /\ reqHeaders_of (again k es) = List.concat (repeat (reqHeaders_of es) (S k)).
Proof.
  induction k as [|k (A & B & C)]; cbn [again].
  - cbn. now rewrite !app_nil_r.
  - destruct (of_app (filter not_path es) (again k es)) as (D & E & F), (others_kept es) as (G & _ & _ & H & _).
    rewrite D, E, F, paths_none, G, H, A, B, C. auto.
Qed.
Lemma Forall_concat_repeat {A} (P : A -> Prop) l n : Forall P l -> Forall P (List.concat (repeat l n)).
Proof. intros H. induction n; cbn; [constructor|]. apply Forall_app. auto. Qed.
Lemma map_concat_repeat {A B} (f : A -> B) l n : map f (List.concat (repeat l n)) = List.concat (repeat (map f l) n).
Proof. induction n as [|n IH]; cbn; auto. now rewrite map_app, IH. Qed.
Lemma interleave {A} (a b : list A) n : Permutation (List.concat (repeat (a ++ b)%list n)) (List.concat (repeat a n) ++ List.concat (repeat b n))%list.
Proof.
  induction n as [|n IH]; cbn; auto. rewrite <- !app_assoc. apply Permutation_app_head.
  rewrite IH, !app_assoc. apply Permutation_app_tail. apply Permutation_app_comm.
Qed.

Lemma tells_again k op path id doc es : tells op path id doc (again k es) -> tells_times (S k) op path id doc es.
Proof.
  intros (A & B & C & D & E & ps & F & G & H). split; auto. split; auto. split.
  { intros status. rewrite C. split; intros (rt & I & X); exists rt; split; auto; now apply (in_again k es (EReturn rt) eq_refl). }
  split. { intros p I. apply D. now apply (in_again k es (EQuery p) eq_refl). }
  split. { intros p I. apply E. now apply (in_again k es (EReqHeader p) eq_refl). }
  exists ps. split; auto. split; auto. intros (U1 & U2 & U3). destruct (again_of k es) as (X & Y & Z).
  rewrite <- H by (unfold unbound_events; rewrite X, Y, Z; auto using Forall_concat_repeat).
  rewrite Y, Z, !map_concat_repeat. apply Permutation_app_head. apply interleave.
Qed.

(** ** C84: routers added as inputs of their own *)

(** The operation of every route of every router tells what its handler does, with the parameters the handler reads
    by name once for every input of gin. *)
Theorem C84_told_partial : forall env fuel prog s w s' w' before o after x,
  sane w -> kind_at (work_dir s w) (w_fs w) = Some KDir -> fresh s -> analyses env fuel prog -> served_once s ->
  valid_orders (e_orders env) -> (forall i, offered s i -> gin_path (gi_path i)) -> times s <> 0 ->
  sv_outputs s = (before ++ o :: after)%list -> out_generate o = GeOpenAPI x -> left_alone s w after (document_place s w x) ->
  Parse env s w = (Ok tt, s', w') ->
  exists yaml d, kind_at (document_place s w x) (w_fs w') = Some (KFile (CDocument yaml d)) /\
    forall i file f g id doc ctx strict es regs last,
      offered s i -> plain_method (gi_method i) -> e_rel env ("/" ++ join "/" (w_cwd w)) (gi_file i) = Some file -> ctx <> "" ->
      (forall main, main = "" \/ main = sv_tempMain s' ->
         handler_of (prog main) (entry_route i file) f g id /\ fn_doc (pr_funcs (prog main) g) = doc /\
         fn_ctx (pr_funcs (prog main) g) f = Ok ctx /\
         S_Parse.documents (pr_funcs (prog main)) strict ctx f (fn_body (pr_funcs (prog main) g)) es regs last) ->
      exists op, operation_at d (openapi_path (gi_path i)) (gi_method i) op /\
        tells_times (times s) op (gi_path i) id doc es.
Proof.
  intros env fuel prog s w s' w' before o after x SA HD FR AN ON VO GP TI EO GO LA E.
  destruct (whole_run env s w SA HD fuel prog before o after x s' w' FR AN ON EO GO LA E)
    as (rs & routes & main & comps & d & custom & config & names0 & names & CR & SI & _ & RO & TM & EM & G & K & _).
  subst main. set (main := sv_tempMain s') in *.
  assert (ND := created_once _ _ _ _ CR ON). assert (DR := cleaned_distinct main rs routes SI ND).
  assert (GP' : forall r, In r (cleanRoutes main routes) -> gin_path (rt_path r)).
  { intros r I. apply (cleaned_from main rs routes SI) in I as (r0 & I & -> & _).
    destruct (created_in _ _ _ _ _ CR I) as (i & p & I1 & I2 & _ & ->). cbn. apply GP. split; auto. }
  exists (is_yaml (openapiPath x)), d. split; [exact K|].
  intros i file f g id doc ctx strict es regs last (I & AL) (M1 & M2) RE NE HO.
  destruct (times s) as [|k]; [congruence|].
  destruct (created_has _ _ _ _ _ CR I AL) as (p & RE' & J). rewrite RE in RE'. injection RE' as <-. fold (entry_route i file) in J.
  assert (X : exists r', rounds fuel prog main (S k) (entry_route i file) r' /\ In r' routes).
  { clear - RO J. induction RO as [|a b l l' R F IH]; [destruct J|]. destruct J as [->|J]; [exists b; cbn; auto|].
    destruct (IH J) as (r' & A & B). exists r'. cbn. auto. }
  destruct X as (r' & R & IR).
  apply (rounds_again fuel prog main f g id ctx strict doc es regs last) in R; auto;
    [|intros m; apply AN|intros m M; apply HO in M; tauto|intros m M; apply HO in M; tauto].
  assert (J' : In (cleanRoute main (analysed doc id (again k es) (entry_route i file))) (cleanRoutes main routes)).
  { rewrite <- R. now apply in_map. }
  assert (PM : rt_path (cleanRoute main (analysed doc id (again k es) (entry_route i file))) = gi_path i /\
               rt_method (cleanRoute main (analysed doc id (again k es) (entry_route i file))) = gi_method i).
  { unfold analysed, comment_of, with_op. destruct id, (String.eqb _ ""); split; reflexivity. }
  destruct PM as (PM1 & PM2).
  destruct (C20_routes_documented_partial _ _ _ _ _ _ _ _ _ G DR GP' J') as (op & D); [congruence|congruence|].
  exists op. split; [destruct D as (D & _); now rewrite PM1, PM2 in D|].
  apply tells_again. exact (told _ _ _ _ _ _ _ _ _ _ _ _ _ _ _ VO G DR GP' J' D).
Qed.
Print Assumptions C84_told_partial.

(** ** An example: two routers *)
Definition two_service : Service :=
  New [WithGinInput (Some [mkGin "GET" "/items/:id" "app.Handle" "/src/app/h.go" 10]);
       WithGinInput (Some [mkGin "POST" "/admin" "app.Handle" "/src/app/h.go" 10]);
       WithConfig (Some shop_config); WithOpenAPIOutput "api.json"].

Example C84_nontrivial :
  sane ex_world /\ kind_at (work_dir two_service ex_world) (w_fs ex_world) = Some KDir /\ fresh two_service /\
  analyses shop_env 5 shop_program /\ served_once two_service /\ valid_orders (e_orders shop_env) /\
  (forall i, offered two_service i -> gin_path (gi_path i)) /\ times two_service = 2 /\
  left_alone two_service ex_world [] (document_place two_service ex_world "api.json") /\
  (exists s' w', Parse shop_env two_service ex_world = (Ok tt, s', w')) /\
  (forall i, In i (served two_service) -> offered two_service i /\ plain_method (gi_method i) /\
     forall main, handler_of (shop_program main) (entry_route i "h.go") 0 0 (Some "Handle") /\
       fn_doc (pr_funcs (shop_program main) 0) = fn_doc (pr_funcs (shop_program "") 0) /\
       fn_ctx (pr_funcs (shop_program main) 0) 0 = Ok "c" /\
       S_Parse.documents (pr_funcs (shop_program main)) true "c" 0 (fn_body (pr_funcs (shop_program main) 0)) shop_events [item_result] false) /\
  List.length (served two_service) = 2.
Proof.
  split; [exact ex_sane|]. split; [reflexivity|]. split; [repeat split|]. split; [intros m; split; [reflexivity|reflexivity]|].
  split. { unfold served_once. cbn. repeat constructor; cbn; intuition discriminate. }
  split; [apply plain_orders_valid|].
  split. { intros i (I & _). cbn in I. destruct I as [<-|[<-|[]]]; repeat constructor. }
  split; [reflexivity|].
  split. { split; [intros o []|]. split; [|discriminate]. intros (r & E). vm_compute in E. discriminate E. }
  split. { pose (X := Parse shop_env two_service ex_world). exists (snd (fst X)), (snd X). vm_compute. reflexivity. }
  split; [|reflexivity].
  intros i I. split; [split; [exact I|intros d []]|]. cbn in I. destruct I as [<-|[<-|[]]];
    (split; [split; [cbn; auto 10|discriminate]|]; intros main; split; [exact (handled shop)|]; split; [reflexivity|]; split; [reflexivity|]; apply shop_documents).
Qed.

(** The full claim is refuted: with two routers the operation of a handler that reads one query parameter lists it
    twice, which is no valid OpenAPI document: parameters must differ in name or place. *)
Theorem C84_once_refuted : exists env fuel prog s w s' w' x yaml d i file f g id ctx es regs last op,
  sane w /\ fresh s /\ analyses env fuel prog /\ served_once s /\ offered s i /\
  Forall (fun input => in_parse input = PaGin) (sv_inputs s) /\
  Parse env s w = (Ok tt, s', w') /\ kind_at (document_place s w x) (w_fs w') = Some (KFile (CDocument yaml d)) /\
  e_rel env ("/" ++ join "/" (w_cwd w)) (gi_file i) = Some file /\
  (forall main, handler_of (prog main) (entry_route i file) f g id /\ fn_ctx (pr_funcs (prog main) g) f = Ok ctx /\
     S_Parse.documents (pr_funcs (prog main)) true ctx f (fn_body (pr_funcs (prog main) g)) es regs last) /\
  unbound_events es /\ NoDup (map p_name (queries_of es)) /\
  operation_at d (openapi_path (gi_path i)) (gi_method i) op /\
  ~ NoDup (map (fun e => (fst (fst e), snd (fst e))) (entries op)) /\
  forall doc, ~ tells op (gi_path i) id doc es.
Proof.
  destruct C84_nontrivial as (A & B & C & D & E & F & G & H & I & (s' & w' & J) & K & _).
  destruct (C84_told_partial shop_env 5 shop_program two_service ex_world s' w' [] (mkOutput "openapi" (GeOpenAPI "api.json") [("filePath", VStr "api.json")]) [] "api.json"
              A B C D E F G ltac:(rewrite H; discriminate) eq_refl eq_refl I J) as (yaml & d & L & M).
  pose (i := mkGin "POST" "/admin" "app.Handle" "/src/app/h.go" 10).
  destruct (K i ltac:(cbn; auto)) as (K1 & K2 & K3).
  destruct (M i "h.go" 0 0 (Some "Handle") _ "c" true shop_events [item_result] false K1 K2 eq_refl ltac:(discriminate) (fun m _ => K3 m)) as (op & O & T).
  assert (U : unbound_events shop_events) by repeat constructor.
  rewrite H in T. destruct T as (_ & _ & _ & _ & _ & ps & P1 & _ & P2). specialize (P2 U).
  exists shop_env, 5, shop_program, two_service, ex_world, s', w', "api.json", yaml, d, i, "h.go", 0, 0, (Some "Handle"), "c", shop_events, [item_result], false, op.
  do 4 (split; auto). split; [exact K1|]. split; [repeat constructor|]. do 2 (split; auto). split; [reflexivity|].
  split. { intros m. destruct (K3 m) as (X1 & _ & X2 & X3). auto. }
  split; [exact U|]. split; [repeat constructor; cbn; tauto|]. split; [exact O|].
  split.
  - intros N. apply (Permutation_NoDup (Permutation_sym (Permutation_map _ P2))) in N. rewrite map_app in N.
    apply NoDup_remove_2 with (l := map (fun e => (fst (fst e), snd (fst e))) (map (fun mn => (snd mn, "path", Ascii.eqb (fst mn) ":")) ps)) in N.
    apply N. apply in_or_app. right. cbn. auto.
  - intros doc (_ & _ & _ & _ & _ & ps' & Q1 & _ & Q2). specialize (Q2 U). rewrite <- P2 in Q2.
    apply Permutation_length in Q2. rewrite !app_length, !map_length in Q2. cbn in Q2.
    rewrite (seg_params_fun _ _ _ Q1 P1) in Q2. lia.
Qed.
Print Assumptions C84_once_refuted.
