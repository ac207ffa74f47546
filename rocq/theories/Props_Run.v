(** Properties of a run: C37. *)
From Coq Require Import List String Ascii Bool ZArith Arith.
From Verif Require Import BaseStr BaseMap M_Types M_Collect M_OpenAPI M_Parse M_Clean M_FS M_Service.
From Verif Require Import S_Names S_Example S_Service P_Act P_Order.
Import ListNotations.
Local Open Scope string_scope.

(** C37: a run is its steps one after the other, up to and including the first that does not succeed, whose
    result it returns; the events it announced are the first of the expected ones, and all of them if it
    succeeded. *)
Theorem C37_first_failure :
  forall env s w r s' w',
    sv_inputs s <> [] -> sv_outputs s <> [] -> Parse env s w = (r, s', w') ->
    exists es,
      run_steps (setup_steps env s ++ complete_steps env s) s w es r s' w' /\
      w_log w' = (rev es ++ w_log w)%list /\
      (exists rest, expected_events (sv_cacheEnabled s) (map in_mode (sv_inputs s)) (map out_mode (sv_outputs s)) = (es ++ rest)%list) /\
      (r = Ok tt -> es = expected_events (sv_cacheEnabled s) (map in_mode (sv_inputs s)) (map out_mode (sv_outputs s))).
Proof.
  intros env s w r s' w' A B E. destruct (parse_run_is env s w A B) as (es & r2 & s2 & w2 & E2 & H).
  rewrite E in E2. injection E2 as <- <- <-. exists es. split; [exact H|]. split.
  - eapply run_steps_log; [|exact H]. apply keeps_plan_log. apply Forall_app. split.
    + eapply weaken; [|apply setup_steps_keep]. intros ? ? ? ? K. apply K.
    + apply complete_steps_keep.
  - rewrite <- (steps_events env s). exact (run_steps_events _ _ _ _ _ _ _ H).
Qed.
Print Assumptions C37_first_failure.

(** C37, completing alone, which is what the command line does. *)
Theorem C37_complete_first_failure :
  forall env s w r s' w',
    sv_inputs s <> [] -> sv_outputs s <> [] -> CompleteParse env s w = (r, s', w') ->
    exists es, run_steps (complete_steps env s) s w es r s' w' /\ w_log w' = (rev es ++ w_log w)%list.
Proof.
  intros env s w r s' w' A B E.
  destruct (completeParse_is env s s w (outputs_kept_refl s) A B) as (es & r2 & s2 & w2 & E2 & H).
  rewrite E in E2. injection E2 as <- <- <-. exists es. split; [exact H|].
  eapply run_steps_log; [|exact H]. apply keeps_plan_log, complete_steps_keep.
Qed.
Print Assumptions C37_complete_first_failure.

(** C37: without an input or without an output nothing happens at all. *)
Theorem C37_nothing_to_do :
  forall env s w, sv_inputs s = [] \/ sv_outputs s = [] -> exists e, Parse env s w = (Err e, s, w).
Proof.
  intros env s w H. unfold Parse, SetupParse. unfold abind at 1 2. unfold checkIO, abind, service.
  destruct (sv_inputs s) as [|i li]; [eexists; reflexivity|].
  destruct (sv_outputs s) as [|o lo]; [eexists; reflexivity|]. destruct H; discriminate.
Qed.
Print Assumptions C37_nothing_to_do.

(** The second output fails; the run stops there with its error, and does not clean up. *)
Example C37_nontrivial :
  let '(r, s', w') := Parse (ex_env no_fault) ex_service ex_world in
  r = Err "fs" /\
  w_log w' = rev [EvSetup; EvCreate; EvCreateInput "gin"; EvParse; EvParseInput "gin"; EvClean; EvGenerate;
                  EvOutput "json"; EvOutput "json"] /\
  match get ["home"; ".astra"] (w_fs w') with Some (Dir _) => True | _ => False end.
Proof. vm_compute. split; [reflexivity|]. split; [reflexivity|exact I]. Qed.

(** C37, refuted: that every failure is returned.  When the directory cannot be removed at the end the run still
    succeeds. *)
Theorem C37_teardown_refuted :
  exists env s w s' w',
    sv_cacheEnabled s = false /\ sv_cliMode s = CLIModeNone /\
    Parse env s w = (Ok tt, s', w') /\
    e_fault env (w_clock w' - 1) <> None /\
    get ["home"; ".astra"] (w_fs w) = None /\ get ["home"; ".astra"] (w_fs w') <> None.
Proof.
  exists (ex_env (fault_at 15)), (New [WithGinInput (Some ex_router); WithJSONOutput "out"]), ex_world.
  pose (X := Parse (ex_env (fault_at 15)) (New [WithGinInput (Some ex_router); WithJSONOutput "out"]) ex_world).
  exists (snd (fst X)), (snd X).
  split; [reflexivity|]. split; [reflexivity|]. split; [vm_compute; reflexivity|].
  split; [vm_compute; discriminate|]. split; [vm_compute; reflexivity|]. vm_compute. discriminate.
Qed.
Print Assumptions C37_teardown_refuted.
