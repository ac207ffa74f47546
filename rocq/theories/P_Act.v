(** Reasoning about actions: what every step of an action preserves. *)
From Coq Require Import List String Ascii Bool ZArith Arith.
From Verif Require Import BaseStr BaseMap M_Types M_Collect M_OpenAPI M_Parse M_Clean M_FS M_Service.
Import ListNotations.
Local Open Scope string_scope.

Definition after_service {A} (x : outcome A * Service * World) : Service := snd (fst x).
Definition after_world {A} (x : outcome A * Service * World) : World := snd x.
Definition result {A} (x : outcome A * Service * World) : outcome A := fst (fst x).

Section Preserve.
  Context (R : Service -> World -> Service -> World -> Prop).
  Context (Rrefl : forall s w, R s w s w).
  Context (Rtrans : forall s w s1 w1 s2 w2, R s w s1 w1 -> R s1 w1 s2 w2 -> R s w s2 w2).

  (** The state after [m] from [s] and [w] is related to the one before. *)
  Definition preserves {A} (m : act A) (s : Service) (w : World) : Prop :=
    R s w (after_service (m s w)) (after_world (m s w)).

  Lemma preserves_bind {A B} (m : act A) (f : A -> act B) s w :
    preserves m s w ->
    (forall a s' w', m s w = (Ok a, s', w') -> preserves (f a) s' w') ->
    preserves (abind m f) s w.
  Proof.
    unfold preserves, abind, after_service, after_world. intros H1 H2.
    destruct (m s w) as [[o s'] w'] eqn:E. cbn in *. destruct o as [a|e| |]; cbn; auto.
    eapply Rtrans; [exact H1|]. exact (H2 a s' w' eq_refl).
  Qed.

  Lemma preserves_service {A} (f : Service -> act A) s w : preserves (f s) s w -> preserves (abind service f) s w.
  Proof. auto. Qed.

  Lemma preserves_ret {A} (a : A) s w : preserves (aret a) s w.
  Proof. apply Rrefl. Qed.

  Lemma preserves_outcome {A} (o : outcome A) s w : preserves (aoutcome o) s w.
  Proof. apply Rrefl. Qed.

  Lemma preserves_ignore m s w : preserves m s w -> preserves (ignore m) s w.
  Proof.
    unfold preserves, ignore, after_service, after_world. intros H.
    destruct (m s w) as [[[a|e| |] s'] w']; exact H.
  Qed.
End Preserve.

(** What an Ok result of a sequence means. *)
Lemma bind_ok {A B} (m : act A) (f : A -> act B) s w b s2 w2 :
  abind m f s w = (Ok b, s2, w2) -> exists a s1 w1, m s w = (Ok a, s1, w1) /\ f a s1 w1 = (Ok b, s2, w2).
Proof.
  unfold abind. destruct (m s w) as [[[a|e| |] s1] w1]; try discriminate. eauto.
Qed.

Lemma abind_assoc {A B D} (m : act A) (f : A -> act B) (g : B -> act D) s w :
  abind (abind m f) g s w = abind m (fun a => abind (f a) g) s w.
Proof. unfold abind. destruct (m s w) as [[[a|e| |] s1] w1]; reflexivity. Qed.

(** ** Relations that operating system calls do not matter for *)

Ltac pres := match goal with
  | |- preserves _ (abind service _) _ _ => apply preserves_service; cbv beta zeta
  | |- preserves _ (abind _ _) _ _ => apply preserves_bind; [assumption| |intros ? ? ? ?]; cbv beta zeta
  | |- preserves _ (aret _) _ _ => apply preserves_ret; assumption
  | |- preserves _ (aoutcome _) _ _ => apply preserves_outcome; assumption
  | |- preserves _ (ignore _) _ _ => apply preserves_ignore
  end.

Section Calls.
  Context (R : Service -> World -> Service -> World -> Prop).
  Context (Rrefl : forall s w, R s w s w).
  Context (Rtrans : forall s w s1 w1 s2 w2, R s w s1 w1 -> R s1 w1 s2 w2 -> R s w s2 w2).
  Context (Rtick : forall s w t, R s w s (tick t w)).
  Context (env : Env).

  Lemma p_call_tree f p s w : preserves R (call_tree env f p) s w.
  Proof.
    unfold preserves, call_tree, after_service, after_world.
    destruct (e_fault env (w_clock w)); cbn; auto. destruct (f _ _); cbn; auto.
  Qed.
  Lemma p_stat p s w : preserves R (os_Stat env p) s w.
  Proof.
    unfold preserves, os_Stat, after_service, after_world. destruct (e_fault env (w_clock w)); cbn; auto.
  Qed.
  Lemma p_removeall p s w : preserves R (os_RemoveAll env p) s w.
  Proof.
    unfold os_RemoveAll. destruct (String.eqb p ""); [pres|].
    destruct (String.eqb p "." || has_suffix "/." p); [pres|].
    unfold preserves. destruct (locate (w_cwd w) p); [apply Rtick|apply p_call_tree].
  Qed.
  Lemma p_rename p q s w : preserves R (os_Rename env p q) s w.
  Proof. apply p_call_tree. Qed.
  Lemma p_write p c s w : preserves R (file_Write env p c) s w.
  Proof.
    unfold preserves, file_Write, after_service, after_world.
    destruct (e_fault env (w_clock w)); cbn; auto. destruct (write _ _ _); cbn; auto.
  Qed.
  Lemma p_readfile p s w : preserves R (os_ReadFile env p) s w.
  Proof.
    unfold preserves, os_ReadFile, after_service, after_world.
    destruct (e_fault env (w_clock w)); cbn; auto. destruct (get _ _) as [[]|]; cbn; auto.
  Qed.
  Lemma p_readdir p s w : preserves R (os_ReadDir env p) s w.
  Proof.
    unfold preserves, os_ReadDir, after_service, after_world.
    destruct (e_fault env (w_clock w)); cbn; auto. destruct (if String.eqb p "" then None else get _ _) as [[]|]; cbn; auto.
  Qed.
  Lemma p_getwd s w : preserves R (os_Getwd env) s w.
  Proof.
    unfold preserves, os_Getwd, after_service, after_world. destruct (e_fault env (w_clock w)); cbn; auto.
  Qed.

  Ltac go := repeat first
    [ apply p_call_tree | apply p_stat | apply p_removeall | apply p_rename | apply p_write | apply p_readfile
    | apply p_readdir | apply p_getwd | pres
    | match goal with
      | |- preserves _ (match ?x with _ => _ end) _ _ => destruct x
      | |- preserves _ (if ?x then _ else _) _ _ => destruct x
      end ].

  Lemma p_writefile p c s w : preserves R (os_WriteFile env p c) s w.
  Proof. unfold os_WriteFile, os_Create. go. Qed.
  Lemma p_setupAstraDir s w : preserves R (setupAstraDir env) s w.
  Proof. unfold setupAstraDir, setupGitIgnore, os_MkdirAll, os_Create. go. Qed.
  Lemma p_copyMain d m l n s w : preserves R (copyMain env d m l n) s w.
  Proof.
    revert n s w; induction l as [|f l IH]; intros n s w; cbn [copyMain]; [go|].
    destruct (has_suffix ".go" f); [|destruct (has_suffix ".mod" f)].
    - pres; [go|]. pres; [apply p_writefile|]. apply IH.
    - pres; [go|]. apply IH.
    - apply IH.
  Qed.
  Lemma p_cache s w : preserves R (Cache env) s w.
  Proof. unfold Cache, ClearCache, os_Create. go. Qed.
  Lemma p_cleanUp s w : preserves R (cleanUp env) s w.
  Proof. unfold cleanUp, cleanupAstraDir, cleanupTempMainPackage. go. Qed.
  Lemma p_azureFunctions d l s w : preserves R (azureFunctions env d l) s w.
  Proof.
    revert s w; induction l as [|r l IH]; intros s w; cbn [azureFunctions]; [go|].
    unfold os_Mkdir. pres; [go|]. pres; [apply p_writefile|]. apply IH.
  Qed.
  Lemma p_generateAzure d s w : preserves R (generateAzure env d) s w.
  Proof.
    unfold generateAzure, SetupTempOutputDir, MoveTempOutputDir, os_Mkdir. pres; [go|]. pres. pres; [apply p_azureFunctions|].
    go.
  Qed.

  Context (Rtemp : forall s w t, R s w (with_tempMain t s) w).
  Lemma p_setupTempMain s w : preserves R (setupTempMainPackage env) s w.
  Proof.
    unfold setupTempMainPackage, os_Mkdir. pres. pres; [go|]. pres; [go|]. pres; [go|]. pres; [go|].
    pres; [apply p_copyMain|]. apply Rtemp.
  Qed.
  Lemma p_getMain s w : preserves R (GetMainPackageName env) s w.
  Proof. unfold GetMainPackageName. pres. pres; [|go]. destruct (String.eqb _ _); [apply p_setupTempMain|go]. Qed.

  Context (Rresults : forall s w r c, R s w (with_results r c s) w).
  Lemma p_cleanTypes s w : preserves R (cleanTypes env) s w.
  Proof. unfold cleanTypes. pres; [apply p_getMain|]. apply Rresults. Qed.
  Lemma p_runCreate f s w : preserves R (runCreate env f) s w.
  Proof.
    destruct f as [|[l|]|a]; cbn [runCreate]; try pres.
    revert s w; induction l as [|i l IH]; intros s w; cbn [ginCreateRoutes]; [go|].
    pres. destruct (denied _ _); [apply IH|]. pres; [go|]. pres; [go|]. pres; [apply Rresults|apply IH].
  Qed.
  Lemma p_runParse f s w : preserves R (runParse env f) s w.
  Proof.
    destruct f as [| |a]; cbn [runParse]; try pres.
    pres; [destruct (e_usesMain _ _ _); [pres; [apply p_getMain|go]|go]|].
    pres. pres; [go|]. pres; [apply Rresults|]. go.
  Qed.

  Context (Rworkdir : forall s w d, R s w (with_workDir d s) w).
  Lemma p_setupDirs s w : preserves R (setupDirs env) s w.
  Proof.
    unfold setupDirs. pres; [apply p_setupAstraDir|]. pres. destruct (String.eqb _ _); [|go]. pres; [go|]. apply Rworkdir.
  Qed.

  Context (Rdoc : forall s w m c n, R s w (with_memo m (with_config c s)) (w_set_names n w)).
  Context (Routputs : forall s w o, R s w (with_outputs o s) w).
  Lemma p_runGenerate n o s w : preserves R (runGenerate env n o) s w.
  Proof.
    unfold runGenerate. destruct (out_generate o).
    - pres.
    - unfold generateOpenAPI. pres. pres; [apply Rrefl|]. pres; [apply Rdoc|].
      pres; [apply Routputs|]. apply p_writefile.
    - unfold generateJSON. pres. pres; [apply Routputs|]. apply p_writefile.
    - apply p_generateAzure.
    - pres.
  Qed.
End Calls.
