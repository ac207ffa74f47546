(** C43, the .gitignore of astra's own directory: a run keeps the one it finds, and writes the one it says otherwise. *)
From Coq Require Import List String Ascii Bool ZArith Arith Lia.
From Verif Require Import BaseStr BaseMap M_Types M_Collect M_OpenAPI M_Clean M_FS M_Service M_Options S_Service S_Cache S_Files S_Example P_FS P_Path P_Frame P_Git Props_Files.
Import ListNotations.
Local Open Scope string_scope.

(** The directory .astra outlives the run. *)
Definition kept (s : Service) : Prop := sv_cacheEnabled s = true \/ sv_cliMode s <> CLIModeNone.
(** Nothing the user asked for is put where the .gitignore is. *)
Definition git_free (s : Service) (w : World) : Prop :=
  (sv_cacheEnabled s = true -> ~ inside (cache_place s w) (work_dir s w ++ [".astra"; ".gitignore"])) /\
  (forall o, In o (sv_outputs s) -> ~ output_place (work_dir s w) o (work_dir s w ++ [".astra"; ".gitignore"])).

(** C43: at no moment of a run, whether it succeeds or fails, is a .gitignore that was there before different from what it was. *)
Theorem C43_gitignore_kept :
  forall env s w r s' w',
    sane w -> kind_at (work_dir s w) (w_fs w) = Some KDir -> (forall n, e_fault env n = None) -> kept s -> git_free s w ->
    kind_at (work_dir s w ++ [".astra"; ".gitignore"]) (w_fs w) <> None ->
    Parse env s w = (r, s', w') ->
    forall t, came_up w w' t ->
      kind_at (work_dir s w ++ [".astra"; ".gitignore"]) t = kind_at (work_dir s w ++ [".astra"; ".gitignore"]) (w_fs w).
Proof.
  intros env s w r s' w' SA D NF KE (NC & NO) TH E t CU.
  apply (came_up_frame _ (fun q => kind_at q (w_fs w)) w w' (git_frame env s w SA NF KE NC NO r s' w' TH D E) t CU).
  intros (_ & N). now apply N.
Qed.
Print Assumptions C43_gitignore_kept.

(** C43: where there was none, a successful run leaves one that ignores everything in the directory. *)
Theorem C43_gitignore_written :
  forall env s w s' w',
    sane w -> kind_at (work_dir s w) (w_fs w) = Some KDir -> (forall n, e_fault env n = None) -> kept s -> git_free s w ->
    kind_at (work_dir s w ++ [".astra"; ".gitignore"]) (w_fs w) = None ->
    Parse env s w = (Ok tt, s', w') ->
    kind_at (work_dir s w ++ [".astra"; ".gitignore"]) (w_fs w') = Some (KFile (CBytes ("*" ++ nl))).
Proof.
  intros env s w s' w' SA D NF KE (NC & NO) AB E. exact (git_new env s w SA NF KE NC NO s' w' AB D E).
Qed.
Print Assumptions C43_gitignore_written.

(** The hypotheses are met: a cached run, once in a place where astra's directory has a .gitignore of the user's own, and once
    in a place without one. *)
Example C43_git_nontrivial :
  let s := New [WithGinInput (Some ex_router); WithJSONOutput "out"; WithCache] in
  let mine := mkWorld (Dir [("home", Dir [(".astra", Dir [(".gitignore", File (CBytes "cache.json"))]);
                                          ("go.mod", File (CBytes ("module example.com/app" ++ nl)))])]) ["home"] [] 0 [] [] in
  let none := mkWorld (Dir [("home", Dir [("go.mod", File (CBytes ("module example.com/app" ++ nl)))])]) ["home"] [] 0 [] [] in
  kept s /\ git_free s mine /\ git_free s none /\ sane mine /\ sane none /\
  fst (fst (Parse (ex_env no_fault) s mine)) = Ok tt /\ fst (fst (Parse (ex_env no_fault) s none)) = Ok tt /\
  kind_at ["home"; ".astra"; ".gitignore"] (w_fs (snd (Parse (ex_env no_fault) s mine))) = Some (KFile (CBytes "cache.json")) /\
  kind_at ["home"; ".astra"; ".gitignore"] (w_fs (snd (Parse (ex_env no_fault) s none))) = Some (KFile (CBytes ("*" ++ nl))).
Proof.
  cbv zeta.
  assert (F : forall (x : content) es, git_free (New [WithGinInput (Some ex_router); WithJSONOutput "out"; WithCache])
                (mkWorld (Dir es) ["home"] [] 0 [] [])).
  { intros _ es. split.
    - intros _ (r & X). revert X. vm_compute. discriminate.
    - intros o [<-|[]]. vm_compute. discriminate. }
  split; [left; reflexivity|]. split; [apply F; exact (CBytes "")|]. split; [apply F; exact (CBytes "")|].
  split; [split; [repeat constructor; discriminate|apply plain_entries_spec; reflexivity]|].
  split; [split; [repeat constructor; discriminate|apply plain_entries_spec; reflexivity]|].
  repeat split; vm_compute; reflexivity.
Qed.
