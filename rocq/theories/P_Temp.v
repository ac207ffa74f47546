(** The import path of the temporary main package during a run. *)
From Coq Require Import List String Ascii Bool ZArith Arith Lia.
From Verif Require Import BaseStr BaseMap M_Types M_Collect M_OpenAPI M_Parse M_Clean M_FS M_Service S_Service.
From Verif Require Import P_Act P_Order P_Frame P_Main P_Cli.
Import ListNotations.
Local Open Scope string_scope.

Definition temp_main (t : string) : Prop := has_suffix ".astra/astramain" t = true.
Lemma temp_main_slash t : temp_main t -> has_char "/" t = true.
Proof. intros H. apply has_suffix_spec in H as (a & ->). rewrite has_char_append. cbn. apply orb_true_r. Qed.
Lemma temp_main_not t : temp_main t -> t <> "" /\ t <> "main" /\ t <> "time".
Proof. intros H. repeat split; intros ->; discriminate H. Qed.

(** No import path yet, or that of a temporary main package. *)
Definition main_known (s : Service) : Prop := sv_tempMain s = "" \/ temp_main (sv_tempMain s).

(** Steps that keep the import path. *)
Definition main_kept (s : Service) (w : World) (s' : Service) (w' : World) : Prop := sv_tempMain s' = sv_tempMain s.
Ltac mk := unfold main_kept in *; intros; cbn in *; congruence.
(** Steps that at most find it. *)
Definition main_stays (s : Service) (w : World) (s' : Service) (w' : World) : Prop := main_known s -> main_known s'.
Ltac ms := unfold main_stays in *; intros; cbn in *; auto.

Lemma setupMain_kept env s w r s' w' : setupTempMainPackage env s w = (r, s', w') ->
  (r = Ok tt /\ temp_main (sv_tempMain s')) \/ (r <> Ok tt /\ sv_tempMain s' = sv_tempMain s).
Proof.
  set (m := fun s => st <-- os_Stat env (path_Join [getAstraDirPath s; mainPackageReplacement]) ;;;
    _ <-- match st with SThere => os_RemoveAll env (path_Join [getAstraDirPath s; mainPackageReplacement]) | _ => aret tt end ;;;
    _ <-- os_Mkdir env (path_Join [getAstraDirPath s; mainPackageReplacement]) ;;;
    files <-- os_ReadDir env (sv_workDir s) ;;; copyMain env (sv_workDir s) (path_Join [getAstraDirPath s; mainPackageReplacement]) files "").
  assert (P : preserves main_kept (m s) s w).
  { unfold m, os_Mkdir. apply preserves_bind; [mk|apply p_stat; mk|]. intros st s1 w1 _. apply preserves_bind; [mk| |].
    { destruct st; try (apply preserves_ret; mk). apply p_removeall; mk. }
    intros _ s2 w2 _. apply preserves_bind; [mk|apply p_call_tree; mk|]. intros _ s3 w3 _. apply preserves_bind; [mk|apply p_readdir; mk|].
    intros l s4 w4 _. apply p_copyMain; mk. }
  assert (Q : setupTempMainPackage env s w = abind (m s) (fun p => modify (with_tempMain (path_Join [p; ".astra/" ++ mainPackageReplacement]))) s w).
  { unfold setupTempMainPackage, m. unfold abind at 1, service. rewrite !abind_assoc.
    unfold abind at 1. symmetry. unfold abind at 1. destruct (os_Stat _ _ s w) as [[[st|e| |] s1] w1]; auto. rewrite !abind_assoc.
    unfold abind at 1. symmetry. unfold abind at 1. match goal with |- context [match ?x s1 w1 with _ => _ end] => destruct (x s1 w1) as [[[[]|e| |] s2] w2] end; auto. rewrite !abind_assoc.
    unfold abind at 1. symmetry. unfold abind at 1. destruct (os_Mkdir _ _ s2 w2) as [[[[]|e| |] s3] w3]; auto. rewrite !abind_assoc.
    unfold abind at 1. symmetry. unfold abind at 1. destruct (os_ReadDir _ _ s3 w3) as [[[l|e| |] s4] w4]; auto. }
  rewrite Q. clear Q. unfold preserves, main_kept, after_service in P. unfold abind, modify.
  destruct (m s s w) as [[[p|e| |] s1] w1]; cbn [fst snd] in P; intros [= <- <- <-]; [left|right..]; split; auto; try discriminate.
  cbn. destruct (temp_suffix p) as (a & E). cbn in E. unfold temp_main. rewrite E. apply has_suffix_spec. eauto.
Qed.
Lemma getMain_ok env s w m s' w' : GetMainPackageName env s w = (Ok m, s', w') -> main_known s ->
  m = sv_tempMain s' /\ temp_main m /\ (sv_tempMain s <> "" -> m = sv_tempMain s).
Proof.
  unfold GetMainPackageName. intros E K. unfold abind at 1, service in E. apply bind_ok in E as ([] & s1 & w1 & E1 & E).
  unfold abind, service, aret in E. injection E as <- <- <-. split; auto.
  destruct (String.eqb (sv_tempMain s) "") eqn:D.
  - apply String.eqb_eq in D. apply setupMain_kept in E1 as [(_ & H)|(H & _)]; [|congruence]. split; auto. congruence.
  - apply String.eqb_neq in D. unfold aret in E1. injection E1 as <- <-. destruct K as [K|K]; [congruence|]. auto.
Qed.
Lemma getMain_stays env s w : preserves main_stays (GetMainPackageName env) s w.
Proof.
  unfold preserves, main_stays, after_service, GetMainPackageName. unfold abind at 1, service.
  destruct (String.eqb (sv_tempMain s) ""); [|auto]. unfold abind at 1.
  destruct (setupTempMainPackage env s w) as [[r s1] w1] eqn:E. apply setupMain_kept in E.
  destruct r as [[]|e| |]; cbn; intros K; unfold main_known in *; destruct E as [(A & B)|(A & B)]; try congruence; auto; rewrite B; auto.
Qed.
Lemma parse_stays env f s w : preserves main_stays (runParse env f) s w.
Proof.
  destruct f as [| |a]; cbn [runParse]; try (apply preserves_outcome; ms).
  apply preserves_service. apply preserves_bind; [ms| |].
  { destruct (e_usesMain _ _ _); [|apply preserves_ret; ms]. apply preserves_bind; [ms|apply getMain_stays|]. intros; apply preserves_ret; ms. }
  intros _ s1 w1 _. apply preserves_service. apply preserves_bind; [ms|apply preserves_outcome; ms|].
  intros x s2 w2 _. apply preserves_bind; [ms|unfold preserves; cbn; ms|]. intros _ s3 w3 _. apply preserves_outcome; ms.
Qed.
Lemma caching_main env s : Forall (fun ea => forall s w, preserves main_kept (snd ea) s w) (caching env s).
Proof. unfold caching. destruct (sv_cacheEnabled s); constructor; [|constructor]. intros s1 w1. apply p_cache; mk. Qed.
Lemma steps_main l s w es r s' w' :
  Forall (fun ea => forall s w, preserves main_kept (snd ea) s w) l -> run_steps l s w es r s' w' -> main_kept s w s' w'.
Proof. intros F H. refine (run_steps_preserve main_kept _ _ _ _ _ _ _ _ _ _ F H); mk. Qed.
Lemma steps_main_stays l s w es r s' w' :
  Forall (fun ea => forall s w, preserves main_stays (snd ea) s w) l -> run_steps l s w es r s' w' -> main_stays s w s' w'.
Proof. intros F H. refine (run_steps_preserve main_stays _ _ _ _ _ _ _ _ _ _ F H); ms. Qed.
Lemma generates_main env l : Forall (fun ea => forall s w, preserves main_kept (snd ea) s w) (map (fun no => (EvOutput (out_mode (snd no)), runGenerate env (fst no) (snd no))) l).
Proof. apply Forall_map_in. intros no _ s w. cbn [snd fst]. apply p_runGenerate; mk. Qed.
