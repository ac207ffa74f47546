(** Property theorems about the results a run leaves in the service and in the file of a JSON output: C35, C63. *)
From Coq Require Import List String Ascii Bool ZArith Arith Lia Permutation.
From Verif Require Import BaseStr BaseMap M_Types M_Collect M_Paths M_TypeTrav M_OpenAPI M_Parse M_Clean M_FS M_Service S_Clean S_Collect S_Names S_OpenAPI S_Parse S_Paths S_Service S_Cache S_Files S_Whole S_Example.
From Verif Require Import P_FS P_Path P_Act P_Order P_Frame P_Cli P_Temp P_Whole Props_Clean Props_Names Props_OpenAPI Props_Parse Props_Files Props_Whole.
Import ListNotations.
Local Open Scope string_scope.

(** ** C35 *)

Lemma complete_results env s w s' w' : main_known s -> CompleteParse env s w = (Ok tt, s', w') ->
  temp_main (sv_tempMain s') /\ exists routes comps,
    sv_routes s' = cleanRoutes (sv_tempMain s') routes /\ sv_components s' = cleanComponents (sv_tempMain s') comps.
Proof.
  intros MK E.
  assert (Z : sv_inputs s <> [] /\ sv_outputs s <> []).
  { unfold CompleteParse in E. apply bind_ok in E as (? & s1 & w1 & E & _). unfold checkIO, abind, service in E.
    destruct (sv_inputs s); [discriminate|]. destruct (sv_outputs s); [discriminate|]. split; discriminate. }
  destruct Z as (Z1 & Z2). destruct (completeParse_is env s s w (outputs_kept_refl s) Z1 Z2) as (es & r2 & s2 & w2 & E2 & H).
  rewrite E in E2. injection E2 as <- <- <-. clear E. unfold complete_steps in H.
  set (pa := map (fun i => (EvParseInput (in_mode i), runParse env (in_parse i))) (sv_inputs s)) in *.
  set (g := map (fun no => (EvOutput (out_mode (snd no)), runGenerate env (fst no) (snd no))) (numbered 0 (sv_outputs s))) in *.
  match type of H with run_steps ?l _ _ _ _ _ _ =>
    replace l with (([(EvParse, aret tt)] ++ pa ++ caching env s) ++ (EvClean, cleanTypes env) ::
                    (caching env s ++ [(EvGenerate, aret tt)] ++ g ++ caching env s ++ [(EvTeardown, cleanUp env)]))%list in H
      by (repeat (rewrite <- ?app_assoc; cbn [app]); reflexivity) end.
  apply steps_split in H as (? & ? & s4 & w4 & H4 & H). apply steps_first in H as (? & s5 & w5 & H5 & H).
  assert (CM : forall l, Forall (fun ea : M_Service.event * act unit => forall s w, preserves main_kept (snd ea) s w) l ->
                         Forall (fun ea : M_Service.event * act unit => forall s w, preserves main_stays (snd ea) s w) l).
  { intros l. apply Forall_impl. intros ea X s0 w0 M. specialize (X s0 w0). unfold preserves, main_kept in X. unfold main_known in *. now rewrite X. }
  assert (NM : forall e : M_Service.event, Forall (fun ea => forall s w, preserves main_kept (snd ea) s w) [(e, aret tt)]).
  { intros e. constructor; [|constructor]. intros s0 w0. unfold preserves. cbn. mk. }
  assert (M4 : main_known s4).
  { refine (steps_main_stays _ _ _ _ _ _ _ _ H4 MK). apply Forall_app. split; [apply CM, NM|]. apply Forall_app. split; [|apply CM, caching_main].
    apply Forall_map_in. intros i _ s0 w0. apply parse_stays. }
  assert (M5 : main_kept s5 w5 s' w').
  { refine (steps_main _ _ _ _ _ _ _ _ H). apply Forall_app. split; [apply caching_main|]. apply Forall_app. split; [apply NM|].
    apply Forall_app. split; [apply generates_main|]. apply Forall_app. split; [apply caching_main|]. constructor; [|constructor].
    intros s0 w0. apply p_cleanUp; mk. }
  assert (R5 : results_kept s5 w5 s' w').
  { refine (steps_results _ _ _ _ _ _ _ _ H). apply Forall_app. split; [apply caching_results|]. apply Forall_app. split.
    { constructor; [|constructor]. intros s0 w0. unfold preserves. cbn. rk. }
    apply Forall_app. split; [apply results_later|]. apply Forall_app. split; [apply caching_results|]. constructor; [|constructor].
    intros s0 w0. apply p_cleanUp; rk. }
  unfold cleanTypes in H5. apply bind_ok in H5 as (main & s0 & w0 & X & Y). unfold modify in Y. injection Y as <- <-.
  apply getMain_ok in X as (-> & T & _); auto. unfold main_kept in M5. cbn [sv_tempMain with_results] in M5. rewrite M5.
  split; auto. exists (sv_routes s0), (sv_components s0). destruct R5 as (A & B & _). cbn in A, B. auto.
Qed.

(** After a whole run, or the second half of one, the service holds nothing of the temporary main package outside headers. *)
Theorem C35_run_partial : forall env s w s' w',
  sv_tempMain s = "" \/ has_suffix ".astra/astramain" (sv_tempMain s) = true ->
  Parse env s w = (Ok tt, s', w') \/ CompleteParse env s w = (Ok tt, s', w') ->
  has_suffix ".astra/astramain" (sv_tempMain s') = true /\
  forall f, result_field_no_header (sv_components s') (sv_routes s') f -> ~ mentions (sv_tempMain s') f.
Proof.
  intros env s w s' w' M E.
  assert (X : exists s1 w1, main_known s1 /\ CompleteParse env s1 w1 = (Ok tt, s', w')).
  { destruct E as [E|E]; [|exists s, w; auto]. unfold Parse in E. apply bind_ok in E as ([] & s1 & w1 & E1 & E). exists s1, w1. split; auto.
    apply setup_aside in E1 as (E1 & _). unfold main_known. now rewrite E1. }
  destruct X as (s1 & w1 & M1 & E1). destruct (complete_results _ _ _ _ _ M1 E1) as (T & routes & comps & R & C).
  split; auto. intros f. rewrite R, C. apply C35_no_temporary_partial. now apply temp_main_not.
Qed.
Print Assumptions C35_run_partial.

(** ** C63 for a JSON output *)

(** The place of a JSON output holds the routes served and not denied, each once and in their order, and, with one Gin input, the
    results of the analysis with nothing changed but the packages. *)
Theorem C63_results_partial : forall env fuel prog s w s' w' before o after x,
  sane w -> kind_at (work_dir s w) (w_fs w) = Some KDir -> fresh s -> analyses env fuel prog -> served_once s ->
  sv_outputs s = (before ++ o :: after)%list -> out_generate o = GeJSON x ->
  left_alone s w after (place (work_dir s w) (with_extension [".json"] x)) ->
  Parse env s w = (Ok tt, s', w') ->
  exists routes components,
    kind_at (place (work_dir s w) (with_extension [".json"] x)) (w_fs w') = Some (KFile (CResults routes components)) /\
    (exists rs, created (e_rel env ("/" ++ join "/" (w_cwd w))) (sv_denyList s) (served s) rs /\ Forall2 same_identity rs routes) /\
    (forall f, result_field_no_header components routes f -> ~ mentions (sv_tempMain s') f) /\
    (forall i, sv_inputs s = [i] -> in_parse i = PaGin ->
      exists main rs routes0 components0, created (e_rel env ("/" ++ join "/" (w_cwd w))) (sv_denyList s) (served s) rs /\
        (main = "" \/ main = sv_tempMain s') /\ GinParseRoutes fuel (prog main) rs [] = Ok (routes0, components0, None) /\
        Forall2 (field_cleaned (sv_tempMain s')) components0 components /\
        Forall2 (fun r r' => (rt_doc r', rt_operationId r') = (rt_doc r, rt_operationId r) /\
          rt_reqHeaders r' = rt_reqHeaders r /\ rt_respHeaders r' = rt_respHeaders r /\
          Forall2 (param_cleaned (sv_tempMain s')) (rt_pathParams r) (rt_pathParams r') /\
          Forall2 (param_cleaned (sv_tempMain s')) (rt_queryParams r) (rt_queryParams r') /\
          Forall2 (fun b b' => (b_name b', b_contentType b') = (b_name b, b_contentType b) /\ field_cleaned (sv_tempMain s') (b_field b) (b_field b'))
            (rt_body r) (rt_body r') /\
          Forall2 (fun t t' => (r_status t', r_contentType t') = (r_status t, r_contentType t) /\ field_cleaned (sv_tempMain s') (r_field t) (r_field t'))
            (rt_returns r) (rt_returns r')) routes0 routes).
Proof.
  intros env fuel prog s w s' w' before o after x SA HD FR AN ON EO GO LA E.
  destruct (whole_json env s w SA HD fuel prog before o after x s' w' FR AN ON EO GO LA E)
    as (rs & routes & main & comps & CR & SI & AL & _ & TM & EM & K). subst main. set (main := sv_tempMain s') in *.
  exists (cleanRoutes main routes), (cleanComponents main comps). split; [exact K|]. split; [|split].
  - exists rs. split; auto. clear - SI. induction SI; constructor; auto.
  - intros f. apply C35_no_temporary_partial. now apply temp_main_not.
  - intros i EI EP. destruct (AL i EI EP) as (main0 & MM & A & _). exists main0, rs, routes, comps.
    split; auto. split; auto. destruct (AN main0) as (_ & AN'). split; [rewrite <- AN'; exact A|].
    destruct (C35_in_place main comps routes) as (P & Q). split; auto.
    clear - Q. induction Q as [|r r' l l' (A & B & C & D & F & G & H) Q IH]; constructor; auto.
    split; [congruence|]. do 4 (split; auto). split; auto.
    clear - G. induction G as [|b b' l l' (X & Y) G IH]; constructor; auto. split; auto. congruence.
Qed.
Print Assumptions C63_results_partial.

(** The example of Props_Whole: its first output is a JSON output. *)
Example C63_results_nontrivial :
  exists before o after, sv_outputs shop_service = (before ++ o :: after)%list /\ out_generate o = GeJSON "routes" /\ after <> [] /\
    left_alone shop_service ex_world after (place (work_dir shop_service ex_world) (with_extension [".json"] "routes")).
Proof.
  exists [], (mkOutput "json" (GeJSON "routes") [("filePath", VStr "routes")]), (tl (sv_outputs shop_service)).
  split; [reflexivity|]. split; [reflexivity|]. split; [discriminate|]. split; [|split].
  - intros o [<-|[<-|[]]]; vm_compute; discriminate.
  - intros (r & E). vm_compute in E. discriminate E.
  - discriminate.
Qed.

(** C35 for a run: the analysis of this example finds a component and bodies of the main package. *)
Definition main_type (t : string) : Field := mkField t "struct" "Item" [] false false "" "" 0 "" "" "" [] [] [] "".
Definition main_body (t : string) (r : Route) : Route :=
  mkRoute (rt_handler r) (rt_file r) (rt_line r) (rt_method r) (rt_path r) [] []
    [mkBody "" (mkField t "Item" "" [] false false "" "" 0 "" "" "" [] [] [] "") "application/json" false false false true] [] "" "" [] [].
Definition main_env : Env :=
  mkEnv no_fault (fun _ _ => Some "h.go") (fun _ _ => true)
    (fun _ t routes comps => Ok (map (main_body t) routes, AddComponent comps [main_type t], None)) (fun _ _ => None) plain_orders.
Example C35_run_nontrivial :
  exists s' w', Parse main_env shop_service ex_world = (Ok tt, s', w') /\ sv_tempMain shop_service = "" /\
    sv_tempMain s' = "example.com/app/.astra/astramain" /\ sv_components s' = [main_type "main"] /\ List.length (sv_routes s') = 2 /\
    Forall (fun r => map (fun b => f_package (b_field b)) (rt_body r) = ["main"]) (sv_routes s').
Proof.
  pose (X := Parse main_env shop_service ex_world). exists (snd (fst X)), (snd X).
  split; [vm_compute; reflexivity|]. split; [reflexivity|]. split; [vm_compute; reflexivity|]. split; [vm_compute; reflexivity|].
  split; [vm_compute; reflexivity|]. vm_compute. repeat constructor.
Qed.
