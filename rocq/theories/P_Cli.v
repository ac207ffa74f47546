(** Set-up and completing from the cache do what a whole run does. *)
From Coq Require Import List String Ascii Bool ZArith Arith Lia.
From Verif Require Import BaseStr BaseMap M_Types M_Collect M_OpenAPI M_Parse M_Clean M_FS M_Service.
From Verif Require Import S_Service S_Cache S_Files S_Twice P_FS P_Path P_Act P_Order P_Frame P_Azure P_Cache P_Load P_Main P_Again P_Chain P_Twice P_Sim P_Left.
Import ListNotations.
Local Open Scope string_scope.

Lemma run_steps_preserve (R : Service -> World -> Service -> World -> Prop) l s w es r s' w' :
  (forall s w, R s w s w) -> (forall s w s1 w1 s2 w2, R s w s1 w1 -> R s1 w1 s2 w2 -> R s w s2 w2) -> (forall e s w, R s w s (noted e w)) ->
  Forall (fun ea => forall s w, preserves R (snd ea) s w) l -> run_steps l s w es r s' w' -> R s w s' w'.
Proof.
  intros RR RT RN F H. induction H as [|e a l s w s1 w1 es r s2 w2 E H IH|e a l s w r s1 w1 E N]; auto; apply Forall_cons_iff in F as (F1 & F2).
  - specialize (F1 s (noted e w)). unfold preserves, after_service, after_world in F1. cbn [snd] in F1. rewrite E in F1. cbn [fst snd] in F1. eauto.
  - specialize (F1 s (noted e w)). unfold preserves, after_service, after_world in F1. cbn [snd] in F1. rewrite E in F1. cbn [fst snd] in F1. eauto.
Qed.

(** What setting up does not touch. *)
Definition set_aside (s : Service) (w : World) (s' : Service) (w' : World) : Prop :=
  sv_tempMain s' = sv_tempMain s /\ sv_customFuncs s' = sv_customFuncs s /\ sv_customTypes s' = sv_customTypes s /\
  sv_memo s' = sv_memo s /\ sv_cacheEnabled s' = sv_cacheEnabled s /\ sv_cachePath s' = sv_cachePath s /\ w_names w' = w_names w /\
  sv_outputs s' = sv_outputs s.

Lemma setup_inputs env s w s' w' : SetupParse env s w = (Ok tt, s', w') -> sv_inputs s <> [] /\ sv_outputs s <> [].
Proof.
  unfold SetupParse. intros E. apply bind_ok in E as (? & s1 & w1 & E & _). unfold checkIO, abind, service in E.
  destruct (sv_inputs s); [discriminate|]. destruct (sv_outputs s); [discriminate|]. split; discriminate.
Qed.
Lemma setup_aside env s w s' w' : SetupParse env s w = (Ok tt, s', w') -> set_aside s w s' w'.
Proof.
  intros E. destruct (setup_inputs _ _ _ _ _ E) as (A & B). destruct (setupParse_is env s w A B) as (es & r2 & s2 & w2 & E2 & H).
  rewrite E in E2. injection E2 as <- <- <-.
  refine (run_steps_preserve set_aside _ _ _ _ _ _ _ _ _ _ _ H); try (unfold set_aside; intros; cbn in *; intuition congruence).
  assert (C : Forall (fun ea => forall s w, preserves set_aside (snd ea) s w) (caching env s)).
  { unfold caching. destruct (sv_cacheEnabled s); constructor; [|constructor]. intros s1 w1. apply p_cache; unfold set_aside; intros; cbn in *; intuition congruence. }
  unfold setup_steps. constructor.
  { intros s1 w1. apply p_setupDirs; unfold set_aside; intros; cbn in *; intuition congruence. }
  apply Forall_app. split; auto. constructor.
  { intros s1 w1. unfold preserves, set_aside. cbn. intuition congruence. }
  apply Forall_app. split; auto. apply Forall_map_in. intros i _ s1 w1. apply p_runCreate; unfold set_aside; intros; cbn in *; intuition congruence.
Qed.
(** Setting up with the cache ends with the cache. *)
Lemma setup_cached env s w s' w' : SetupParse env s w = (Ok tt, s', w') -> sv_cacheEnabled s = true -> exists w1, Cache env s' w1 = (Ok tt, s', w').
Proof.
  intros E CE. destruct (setup_inputs _ _ _ _ _ E) as (A & B). destruct (setupParse_is env s w A B) as (es & r2 & s2 & w2 & E2 & H).
  rewrite E in E2. injection E2 as <- <- <-. unfold setup_steps, caching in H. rewrite CE in H.
  match type of H with run_steps ?l _ _ _ _ _ _ => assert (Z : exists l1 e, l = (l1 ++ [(e, Cache env)])%list) end.
  { match goal with |- exists l1 e, (?a :: ?b ++ ?c :: ?d ++ [(?f, _)])%list = _ => exists (a :: b ++ c :: d)%list, f end. reflexivity. }
  destruct Z as (l1 & e & Z). rewrite Z in H.
  apply run_steps_last in H as (es1 & s1 & w1 & _ & EC). assert (X := cache_same_service _ _ _ _ _ _ EC). destruct X as (-> & _). eauto.
Qed.

(** Setting up finds text. *)
Definition stays_carried (s : Service) (w : World) (s' : Service) (w' : World) : Prop := carried s -> carried s'.
Lemma create_carried env f s w :
  text_paths env -> (forall l, f = CrGin (Some l) -> Forall text_entry l) -> preserves stays_carried (runCreate env f) s w.
Proof.
  intros TP T. destruct f as [|[l|]|a]; cbn [runCreate]; try (unfold preserves, stays_carried; cbn; auto; fail).
  specialize (T l eq_refl). revert s w. induction T as [|g l (G1 & G2 & G3) F IH]; intros s w; cbn [ginCreateRoutes]; [unfold preserves, stays_carried; cbn; auto|].
  unfold preserves, after_service, after_world, abind at 1, service at 1. destruct (denied _ _); [apply IH|].
  unfold abind at 1. unfold os_Getwd. destruct (e_fault env (w_clock w)); [unfold stays_carried; cbn; auto|].
  unfold abind at 1, aoutcome. unfold createRoute. destruct (e_rel env _ _) as [r|] eqn:E; [|unfold stays_carried; cbn; auto].
  apply TP in E. unfold abind at 1, modify.
  match goal with |- stays_carried _ _ (snd (fst (_ ?s1 ?w1))) _ => specialize (IH s1 w1) end. unfold preserves, after_service, after_world in IH.
  intros C. apply IH. destruct C as (C1 & C2 & C3 & C4 & C5). repeat split; auto. cbn [with_results sv_routes]. unfold AddRoute. apply Forall_app. split; auto.
  constructor; [|constructor]. unfold carried_route, texts, newRoute. cbn. repeat split; auto. repeat constructor; auto.
Qed.
Lemma setup_carried env s w s' w' : SetupParse env s w = (Ok tt, s', w') -> text_paths env -> Forall text_input (sv_inputs s) -> carried s -> carried s'.
Proof.
  intros E TP TI. destruct (setup_inputs _ _ _ _ _ E) as (A & B). destruct (setupParse_is env s w A B) as (es & r2 & s2 & w2 & E2 & H).
  rewrite E in E2. injection E2 as <- <- <-.
  refine (run_steps_preserve stays_carried _ _ _ _ _ _ _ _ _ _ _ H); try (unfold stays_carried; intros; cbn in *; intuition congruence).
  assert (C : Forall (fun ea => forall s w, preserves stays_carried (snd ea) s w) (caching env s)).
  { unfold caching. destruct (sv_cacheEnabled s); constructor; [|constructor]. intros s1 w1. apply p_cache; unfold stays_carried; auto. }
  unfold setup_steps. constructor.
  { intros s1 w1. apply p_setupDirs; unfold stays_carried; auto. }
  apply Forall_app. split; auto. constructor.
  { intros s1 w1. unfold preserves, stays_carried. cbn. auto. }
  apply Forall_app. split; auto. apply Forall_map_in. intros i I s1 w1. cbn [snd]. apply create_carried; auto. rewrite Forall_forall in TI. exact (TI i I).
Qed.

(** Rebinding what was loaded of a plain service. *)
Lemma rebind_plain (s s0 : Service) (is' : list Input) (os' : list Output) :
  Forall plain_input (sv_inputs s) -> Forall plain_output (sv_outputs s) ->
  map in_mode is' = map in_mode (sv_inputs s) -> map (fun o => (out_mode o, out_config o)) os' = map (fun o => (out_mode o, out_config o)) (sv_outputs s) ->
  exists s2, rebindOptions (with_io is' os' s0) = Ok s2 /\ same_but_io (with_io is' os' s0) s2 /\
    map in_parse (sv_inputs s2) = map in_parse (sv_inputs s) /\ map out_generate (sv_outputs s2) = map out_generate (sv_outputs s).
Proof.
  intros PI PO MI MO.
  assert (FI : Forall (fun i => in_mode i = "gin") is').
  { clear -PI MI. revert is' MI. induction PI as [|i l (P & _) F IH]; intros [|i' l']; cbn; try discriminate; constructor; injection MI as E1 E2; [congruence|auto]. }
  assert (FO : Forall2 (fun o o' => plain_output o /\ out_mode o' = out_mode o /\ out_config o' = out_config o) (sv_outputs s) os').
  { clear -PO MO. revert os' MO. induction PO as [|o l P F IH]; intros [|o' l']; cbn; try discriminate; constructor; injection MO as E1 E2 E3; auto. }
  assert (X : exists s2, rebindOptions (with_io is' os' s0) = Ok s2).
  { unfold rebindOptions. destruct (rebindInputs_ok (sv_inputs (with_io is' os' s0)) (with_inputs [] (with_io is' os' s0)) FI) as (s1 & ->).
    cbn [bind]. apply rebindOutputs_ok. cbn [with_io sv_outputs]. clear -FO. induction FO as [|o o' l l' ((x & P) & M & C) F IH]; constructor; auto.
    exists x. unfold file_output in *. rewrite M, C. tauto. }
  destruct X as (s2 & RB). exists s2. split; auto. apply rebindOptions_spec in RB as (BI & BO & SB). split; auto.
  cbn [with_io sv_inputs sv_outputs] in BI, BO. split.
  - transitivity (map (fun _ : Input => PaGin) is').
    + clear -BI. induction BI as [|i i' l l' (_ & _ & _ & P) F IH]; cbn; congruence.
    + clear -PI MI. revert is' MI. induction PI as [|i l (_ & P) F IH]; intros [|i' l']; cbn; try discriminate; auto. intros [= E1 E2]. rewrite P. f_equal. auto.
  - clear -BO FO. revert FO BO. generalize (sv_outputs s), (sv_outputs s2). intros l l2 FO. revert l2.
    induction FO as [|o o' l l' ((x & P) & M & C) F IH]; intros l2 B; inversion B as [|? o2 ? l3 (y & N & G & M2 & _ & H) B2]; subst; cbn; auto.
    f_equal; [|auto]. rewrite M, C in *.
    destruct P as [((PM & _ & PC) & PG)|((PM & _ & PC) & PG)]; rewrite PM, PC in *; injection G as <-; destruct H as [(H1 & H2)|(H1 & H2)]; congruence.
Qed.

Lemma two_halves base w0 eA eB s sA wA cacheFile flag :
  sane w0 -> sorted_tree (w_fs w0) -> kind_at base (w_fs w0) = Some KDir -> work_dir s w0 = base -> w_names w0 = [] ->
  plain_service s -> (forall q, document_place base s q -> ~ inside (base ++ [".astra"]) q) ->
  same_answers eA eB -> (forall n, e_fault eB n = None) ->
  locate (w_cwd w0) cacheFile = (base ++ [".astra"; "cache.json"])%list -> has_suffix ".json" cacheFile = true -> locate (w_cwd w0) flag = base ->
  Parse eA s w0 = (Ok tt, sA, wA) ->
  exists s1 w1, SetupParse eB (WithCLI s) w0 = (Ok tt, s1, w1) /\ w_cwd w1 = w_cwd w0 /\
    (carried s1 -> forall s, exists s2 w2, cliGenerate eB cacheFile flag s w1 = (Ok tt, s2, w2) /\
       forall q, ~ inside (base ++ [".astra"]) q -> kind_at q (w_fs w2) = kind_at q (w_fs wA)).
Proof.
  intros (CP & PT) SO KB WD NM (PI & PO & TM & CF & CT & ME & CA) OUT (ER & EM & EAN & EO) NF LC JC LF E.
  assert (FR : forall c, kind_at (base ++ [".astra"]) (w_fs w0) <> Some (KFile c)).
  { intros c KA. destruct (parse_mkdir _ _ _ _ _ E) as (t & M). rewrite (astra_at (w_cwd w0) base s WD) in M.
    rewrite (mkdir_all_none _ _ _ c (is_prefix_refl _) KA) in M. discriminate. }
  unfold Parse in E. apply bind_ok in E as ([] & sA1 & wA1 & EA1 & EA2).
  pose (X := fun a b : list Input * list Output * list (string -> bool) => a = plan s /\ b = plan s).
  destruct (sim_SetupParse (w_cwd w0) base CP eA eB NF ER X nowhere) with (3 := EA1) (sB := WithCLI s) (wB := w0) as (sB1 & wB1 & EB1 & RE).
  { intros a b (-> & ->). repeat split; auto. }
  { split; [repeat split; auto|]. split; [split; auto|]. split; [split; auto|]. split; [split; reflexivity|].
    split; [|exact FR]. split; [repeat split; auto|]. split; [repeat split; auto|]. split; auto. intros q N. now left. }
  destruct RE as (SW & DA & DB & (PA & PB) & W & RD).
  exists sB1, wB1. split; auto. split; [apply W|]. intros CAR s9.
  assert (AA := setup_aside _ _ _ _ _ EA1). assert (AB := setup_aside _ _ _ _ _ EB1).
  destruct (setup_cached _ _ _ _ _ EB1 eq_refl) as (wc & EC).
  destruct AB as (_ & _ & _ & _ & CE & CPB & _). cbn in CE, CPB. rewrite CA in CPB.
  destruct (cache_ok _ _ _ _ _ EC) as (c & _ & CJ & KC). assert (Y : is_yaml (cachePath sB1) = false) by (apply json_not_yaml, default_json; auto).
  rewrite Y in *. specialize (CJ eq_refl). subst c.
  assert (CW : w_cwd wc = w_cwd w0).
  { assert (Z : preserves (fun _ w _ w' => w_cwd w' = w_cwd w) (Cache eB) sB1 wc) by (apply p_cache; intros; cbn in *; congruence).
    unfold preserves, after_service, after_world in Z. rewrite EC in Z. cbn in Z. assert (w_cwd wB1 = w_cwd w0) by apply W. congruence. }
  assert (LK : cache_place sB1 wc = (base ++ [".astra"; "cache.json"])%list).
  { unfold cache_place. rewrite CPB, CW. cbn [String.eqb]. rewrite locate_join_plain by exact plain_cache.
    change (path_Join [sv_workDir sB1; ".astra"]) with (getAstraDirPath sB1). rewrite (astra_at (w_cwd w0) base) by apply DB. now rewrite <- app_assoc. }
  rewrite LK in KC.
  (* the command *)
  set (wB2 := w_set_names [] wB1).
  assert (CB : w_cwd wB2 = w_cwd w0) by apply W.
  assert (G : exists wd wB3, (if negb (is_rooted flag) then (wd <-- os_Getwd eB ;;; aret (path_Join [wd; flag])) else aret flag) s9 wB2 = (Ok wd, s9, wB3) /\
     locate (w_cwd w0) wd = base /\ wd <> "" /\ w_fs wB3 = w_fs wB1 /\ w_cwd wB3 = w_cwd w0 /\ w_names wB3 = []).
  { destruct (is_rooted flag) eqn:RO; cbn [negb].
    - exists flag, wB2. repeat split; auto. intros ->. discriminate.
    - unfold abind, os_Getwd. rewrite NF. exists (path_Join ["/" ++ join "/" (w_cwd wB2); flag]), (tick (w_fs wB2) wB2). split; [reflexivity|].
      split; [|split; [|repeat split; auto]].
      + rewrite locate_join by now right. rewrite CB, locate_cwd by auto. rewrite <- LF. unfold under, locate. now rewrite RO.
      + unfold path_Join. destruct flag as [|c f]; cbn [filter negb String.eqb append];
        cbn [join String.concat append]; unfold path_Clean; change (is_rooted (String "/" _)) with true; cbv iota; discriminate. }
  destruct G as (wd & wB3 & EW & LW & WN & F3 & C3 & N3).
  assert (KC3 : kind_at (locate (w_cwd wB3) cacheFile) (w_fs wB3) = Some (KFile (CCache false (json_service sB1)))) by (rewrite C3, LC, F3; exact KC).
  set (n := New [WithCLIBuilder; WithCustomWorkDir wd]).
  assert (EL := load_custom eB cacheFile n wB3 _ NF KC3). unfold decodeCache in EL. rewrite JC in EL.
  destruct (carried_service sB1 CAR) as (K1 & K2 & K3 & K4 & K5). cbv zeta in K1, K2, K3, K4, K5.
  set (sl := loaded (json_service sB1) n) in *.
  assert (IO : sv_inputs sB1 = sv_inputs s /\ sv_outputs sB1 = sv_outputs s) by (unfold plan in PB; injection PB as -> -> _; auto).
  destruct IO as (IO1 & IO2).
  assert (RB : exists s2, rebindOptions sl = Ok s2 /\ same_but_io sl s2 /\
    map in_parse (sv_inputs s2) = map in_parse (sv_inputs s) /\ map out_generate (sv_outputs s2) = map out_generate (sv_outputs s)).
  { assert (Z : sl = with_io (sv_inputs sl) (sv_outputs sl) sl) by reflexivity. rewrite Z. apply rebind_plain; auto.
    - change (sv_inputs sl) with (map (fun m => mkInput m CrNil PaNil) (ca_inputs (json_service sB1))). rewrite map_map, K1, IO1. cbn. apply map_id.
    - change (sv_outputs sl) with (map (fun mc => mkOutput (fst mc) GeNil (snd mc)) (ca_outputs (json_service sB1))). rewrite map_map, K2, IO2. cbn.
      rewrite map_map. reflexivity. }
  destruct RB as (s2 & RB & SB & MI & MO).
  set (wB4 := tick (w_fs wB3) wB3) in *.
  assert (EG : cliGenerate eB cacheFile flag s9 wB1 = CompleteParse eB s2 wB4).
  { unfold cliGenerate. fold wB2. unfold abind at 1. rewrite EW. unfold abind at 1, modify at 1. fold n. unfold abind at 1. rewrite EL. fold sl.
    unfold abind at 1, service at 1. unfold abind at 1, aoutcome at 1. rewrite RB. reflexivity. }
  rewrite EG.
  destruct SB as (B1 & B2 & B3 & (B4 & B5 & B6 & B7 & B8 & B9 & B10) & B11 & B12).
  destruct AA as (A1 & A2 & A3 & A4 & _ & _ & A7 & _).
  destruct SW as (W1 & W2 & W3 & W4 & W5 & W6).
  destruct (sim_CompleteParse (w_cwd w0) base CP eA eB NF EM EAN EO nowhere (sv_outputs s)) with (4 := EA2) (sB := s2) (wB := wB4) as (sB5 & wB5 & EB5 & DN).
  { intros f []. }
  { rewrite Forall_forall in *. intros o I. split.
    - destruct (PO o I) as (x & [(_ & G)|(_ & G)]); intros (d & G'); congruence.
    - intros q Q. apply OUT. now exists o. }
  { split; [|split; [exact DA|split; [|split; [|split]]]].
    - split; [rewrite B1, W1; symmetry; exact K3|]. split; [rewrite B2, W2; symmetry; exact K4|]. split; [rewrite B3, W3; symmetry; exact K5|].
      split; [rewrite B4, A1; exact TM|]. split; [rewrite B10, A2; exact CF|]. unfold custom_of. rewrite B11, B12, A4, ME, A3, CT. reflexivity.
    - split; [split; [rewrite B5; exact LW|]|rewrite B5; exact WN]. rewrite B6. discriminate.
    - split; [|split].
      + rewrite PA. symmetry. exact MI.
      + rewrite PA. reflexivity.
      + exact MO.
    - destruct W as (HA & (_ & HB) & N & O). split; [exact HA|]. split; [split; [exact C3|]; change (w_fs wB4) with (w_fs wB3); rewrite F3; exact HB|].
      split; [change (w_names wB4) with (w_names wB3); congruence|]. change (w_fs wB4) with (w_fs wB3). rewrite F3. exact O.
    - change (w_fs wB4) with (w_fs wB3). rewrite F3. exact RD. }
  exists sB5, wB5. split; auto. destruct DN as (_ & _ & _ & AL). intros q N. destruct (AL q N) as [|(([] & _) & _)]. congruence.
Qed.
