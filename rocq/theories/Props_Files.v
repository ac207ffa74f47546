(** What runs do to the files of the user: C43, C45. *)
From Coq Require Import List String Ascii Bool ZArith Arith.
From Verif Require Import BaseStr BaseMap M_Types M_Collect M_OpenAPI M_Parse M_Clean M_FS M_Service.
From Verif Require Import S_Names S_Example S_Cache S_Files P_FS P_Path P_Act P_Frame.
Import ListNotations.
Local Open Scope string_scope.

(** C43: whatever fails and however the run ends, at no moment is anything changed outside the places of the run. *)
Theorem C43_outside_unchanged :
  forall env s w r s' w',
    sane w -> kind_at (work_dir s w) (w_fs w) = Some KDir -> Parse env s w = (r, s', w') ->
    forall t, came_up w w' t -> forall q, ~ run_place s w q -> kind_at q t = kind_at q (w_fs w).
Proof.
  intros env s w r s' w' SA D E. apply (came_up_frame _ (fun q => kind_at q (w_fs w))).
  exact (parse_frame env s w SA r s' w' D E).
Qed.
Print Assumptions C43_outside_unchanged.

(** C43: the same for completing alone, which is what the command line does. *)
Theorem C43_complete_outside_unchanged :
  forall env s w r s' w',
    sane w -> sv_workDir s <> "" -> CompleteParse env s w = (r, s', w') ->
    forall t, came_up w w' t -> forall q, ~ run_place s w q -> kind_at q t = kind_at q (w_fs w).
Proof.
  intros env s w r s' w' SA W E. apply (came_up_frame _ (fun q => kind_at q (w_fs w))).
  exact (complete_frame env s w r s' w' SA W E).
Qed.
Print Assumptions C43_complete_outside_unchanged.

(** C43: after a successful run without cache or command line, in a place where astra had no directory, the tree is
    as before but for the places of the outputs. *)
Theorem C43_restored :
  forall env s w s' w',
    sane w -> kind_at (work_dir s w) (w_fs w) = Some KDir -> (forall n, e_fault env n = None) ->
    temporary s -> kind_at (work_dir s w ++ [".astra"]) (w_fs w) = None ->
    Parse env s w = (Ok tt, s', w') ->
    forall q, (forall o, In o (sv_outputs s) -> ~ output_place (work_dir s w) o q) ->
              kind_at q (w_fs w') = kind_at q (w_fs w).
Proof.
  intros env s w s' w' SA D NF TE AB E q NO.
  destruct (parse_frame env s w SA _ s' w' D E) as ((_ & U) & _).
  destruct (parse_cleaned env s w s' w' SA D NF E) as (G & _).
  destruct (is_prefix (work_dir s w ++ [".astra"]) q) eqn:P.
  - apply is_prefix_spec in P as (x & ->). rewrite (kind_none_below _ x _ AB). rewrite <- app_assoc. now apply G.
  - apply U. intros [A|[(C & _)|(o & I & O)]].
    + assert (X : inside (work_dir s w ++ [".astra"]) q).
      { destruct A as [->|[->|[(x & ->)|[(_ & x & ->)|(_ & X)]]]]; auto.
        - exists []. now rewrite app_nil_r.
        - now exists [".gitignore"].
        - exists ("astramain" :: x). now rewrite <- !app_assoc.
        - exists ("azure" :: x). now rewrite <- !app_assoc. }
      destruct X as (x & ->). now rewrite is_prefix_app in P.
    + destruct TE as (T1 & _). congruence.
    + exact (NO o I O).
Qed.
Print Assumptions C43_restored.

(** C43: with the cache the directory stays, with nothing new in it but the .gitignore and the cache (Azure outputs
    left aside). *)
Theorem C43_cached :
  forall env s w s' w',
    sane w -> kind_at (work_dir s w) (w_fs w) = Some KDir -> (forall n, e_fault env n = None) ->
    sv_cacheEnabled s = true -> kind_at (work_dir s w ++ [".astra"]) (w_fs w) = None ->
    (forall o, In o (sv_outputs s) -> ~ is_azure o) ->
    Parse env s w = (Ok tt, s', w') ->
    forall q, (forall o, In o (sv_outputs s) -> ~ output_place (work_dir s w) o q) ->
              ~ inside (cache_place s w) q ->
              q <> (work_dir s w ++ [".astra"])%list -> q <> (work_dir s w ++ [".astra"; ".gitignore"])%list ->
              kind_at q (w_fs w') = kind_at q (w_fs w).
Proof.
  intros env s w s' w' SA D NF CE AB NA E q NO NC N1 N2.
  destruct (parse_frame env s w SA _ s' w' D E) as ((_ & U) & _).
  destruct (parse_cleaned env s w s' w' SA D NF E) as (_ & G).
  destruct (is_prefix (work_dir s w ++ [".astra"; "astramain"]) q) eqn:P.
  - apply is_prefix_spec in P as (x & ->). rewrite <- app_assoc. cbn [app]. rewrite G. symmetry.
    change (".astra" :: "astramain" :: x) with ([".astra"] ++ "astramain" :: x)%list. rewrite app_assoc.
    now apply kind_none_below.
  - apply U. intros [[A|[A|[(x & A)|[((o & I & O) & _)|((T & _) & _)]]]]|[(_ & C)|(o & I & O)]].
    + exact (N1 A).
    + apply N2. rewrite A. now rewrite <- app_assoc.
    + rewrite A in P. replace ((work_dir s w ++ [".astra"]) ++ ["astramain"])%list
        with (work_dir s w ++ [".astra"; "astramain"])%list in P by now rewrite <- app_assoc.
      now rewrite is_prefix_app in P.
    + exact (NA o I O).
    + congruence.
    + exact (NC C).
    + exact (NO o I O).
Qed.
Print Assumptions C43_cached.

Lemma ex_sane : sane ex_world.
Proof. split; [repeat constructor; discriminate|]. apply plain_entries_spec. reflexivity. Qed.

(** A successful run with one output in a directory with other files; the hypotheses of C43_restored hold, and the
    output is there. *)
Definition ex_single : Service := New [WithGinInput (Some ex_router); WithJSONOutput "out"].
Example C43_nontrivial :
  sane ex_world /\ kind_at (work_dir ex_single ex_world) (w_fs ex_world) = Some KDir /\ temporary ex_single /\
  kind_at (work_dir ex_single ex_world ++ [".astra"]) (w_fs ex_world) = None /\
  let '(r, s', w') := Parse (ex_env no_fault) ex_single ex_world in
  r = Ok tt /\
  match kind_at ["home"; "out.json"] (w_fs w') with Some (KFile (CResults [x] _)) => rt_path x = "/ping" | _ => False end /\
  kind_at ["home"; "notes.txt"] (w_fs w') = Some (KFile (CBytes "mine")).
Proof.
  split; [exact ex_sane|]. split; [reflexivity|]. split; [split; reflexivity|]. split; [reflexivity|].
  vm_compute. split; [reflexivity|]. split; reflexivity.
Qed.

(** C43, refuted: that no file of the user's is removed.  What the user keeps in a directory of that name is removed
    by a successful run. *)
Theorem C43_refuted :
  exists env s w s' w' q c,
    (forall n, e_fault env n = None) /\ sane w /\ kind_at (work_dir s w) (w_fs w) = Some KDir /\
    Parse env s w = (Ok tt, s', w') /\
    (forall o, In o (sv_outputs s) -> ~ output_place (work_dir s w) o q) /\
    kind_at q (w_fs w) = Some (KFile c) /\ kind_at q (w_fs w') = None.
Proof.
  set (t := Dir [("home", Dir [(".astra", Dir [("mine.txt", File (CBytes "mine"))]);
                               ("go.mod", File (CBytes ("module example.com/app" ++ nl)))])]).
  set (w := mkWorld t ["home"] [] 0 [] []).
  pose (X := Parse (ex_env no_fault) ex_single w).
  exists (ex_env no_fault), ex_single, w, (snd (fst X)), (snd X), ["home"; ".astra"; "mine.txt"], (CBytes "mine").
  split; [reflexivity|]. split.
  { split; [repeat constructor; discriminate|]. apply plain_entries_spec. reflexivity. }
  split; [reflexivity|]. split; [vm_compute; reflexivity|]. split.
  { intros o [<-|[]]. vm_compute. discriminate. }
  split; [reflexivity|]. vm_compute. reflexivity.
Qed.
Print Assumptions C43_refuted.

(** C45, as far as it holds: at no moment of generating an output is anything changed but at its own place - for JSON and
    OpenAPI that one file, for Azure functions everything at or below the configured directory - and, for Azure functions,
    in the temporary directory. *)
Theorem C45_own_place_partial :
  forall env n o s w r s' w',
    sane w -> sv_workDir s <> "" -> runGenerate env n o s w = (r, s', w') ->
    forall t, came_up w w' t ->
    forall q, ~ output_place (work_dir s w) o q ->
              ~ (is_azure o /\ inside (work_dir s w ++ [".astra"; "azure"]) q) ->
              kind_at q t = kind_at q (w_fs w).
Proof.
  intros env n o s w r s' w' SA W E t CU q N1 N2.
  apply (came_up_frame _ (fun q => kind_at q (w_fs w)) w w' (generate_frame env n o s w r s' w' SA W E) t CU).
  intros [X|X]; auto.
Qed.
Print Assumptions C45_own_place_partial.

(** A directory at the place of a document is not removed: the run fails instead. *)
Theorem C45_directory_kept :
  forall env n o s w r s' w' x,
    sane w -> sv_workDir s <> "" -> out_generate o = GeJSON x \/ out_generate o = GeOpenAPI x ->
    runGenerate env n o s w = (r, s', w') ->
    forall q, kind_at q (w_fs w) = Some KDir -> kind_at q (w_fs w') = Some KDir.
Proof.
  intros env n o s w r s' w' x SA W G E q K.
  destruct (generate_frame env n o s w r s' w' SA W E) as ((_ & U) & _).
  assert (WF := writefile_dir env q).
  unfold runGenerate in E. destruct G as [G|G]; rewrite G in E.
  - unfold generateJSON in E. unfold abind, service, capture, modify in E. eauto.
  - unfold generateOpenAPI in E. unfold abind at 1 2 in E. unfold service in E.
    destruct (buildDocument _ _ _ _ _ _) as [d|e| |]; try now injection E as _ _ <-.
    unfold abind, capture, modify in E. eapply WF; [exact E|exact K].
Qed.
Print Assumptions C45_directory_kept.

(** C45, refuted: with the output directory given as the empty string, or a dot, the working directory itself is removed
    with all files of the user; and the run then fails. *)
Theorem C45_refuted :
  forall dir, dir = "" \/ dir = "." ->
  exists env s w r s' w',
    (forall n, e_fault env n = None) /\ s = New [WithGinInput (Some ex_router); WithAzureFunctionsOutput dir] /\
    Parse env s w = (r, s', w') /\
    kind_at ["home"; "main.go"] (w_fs w) <> None /\ kind_at ["home"; "notes.txt"] (w_fs w) = Some (KFile (CBytes "mine")) /\
    kind_at ["home"] (w_fs w') = None.
Proof.
  intros dir H. pose (s := New [WithGinInput (Some ex_router); WithAzureFunctionsOutput dir]).
  pose (X := Parse (ex_env no_fault) s ex_world).
  exists (ex_env no_fault), s, ex_world, (fst (fst X)), (snd (fst X)), (snd X).
  split; [reflexivity|]. split; [reflexivity|]. split; [unfold X; now destruct (Parse _ _ _) as [[? ?] ?]|].
  split; [vm_compute; discriminate|]. split; [reflexivity|].
  destruct H as [-> | ->]; vm_compute; reflexivity.
Qed.
Print Assumptions C45_refuted.

(** C45, refuted: other files of the user's in the output directory are removed by a successful run. *)
Theorem C45_neighbours_refuted :
  exists env s w s' w',
    (forall n, e_fault env n = None) /\ s = New [WithGinInput (Some ex_router); WithAzureFunctionsOutput "functions"] /\
    Parse env s w = (Ok tt, s', w') /\
    kind_at ["home"; "functions"; "host.json"] (w_fs w) = Some (KFile (CBytes "mine")) /\
    kind_at ["home"; "functions"; "host.json"] (w_fs w') = None /\
    kind_at ["home"; "functions"; "ping"; "function.json"] (w_fs w') = Some (KFile (CFunction ["get"; "options"] "/ping")).
Proof.
  pose (s := New [WithGinInput (Some ex_router); WithAzureFunctionsOutput "functions"]).
  set (t := Dir [("home", Dir [("functions", Dir [("host.json", File (CBytes "mine"))]);
                               ("go.mod", File (CBytes ("module example.com/app" ++ nl)))])]).
  set (w := mkWorld t ["home"] [] 0 [] []).
  pose (X := Parse (ex_env no_fault) s w).
  exists (ex_env no_fault), s, w, (snd (fst X)), (snd X).
  split; [reflexivity|]. split; [reflexivity|]. split; [vm_compute; reflexivity|].
  split; [reflexivity|]. split; vm_compute; reflexivity.
Qed.
Print Assumptions C45_neighbours_refuted.

(** The hypotheses of C45_own_place_partial and what happens there. *)
Example C45_nontrivial :
  let s := WithCustomWorkDir "/home" ex_single in
  sane ex_world /\ sv_workDir s <> "" /\
  exists o, In o (sv_outputs s) /\ output_place (work_dir s ex_world) o ["home"; "out.json"] /\
  let '(r, _, w') := runGenerate (ex_env no_fault) 0 o s ex_world in
  r = Ok tt /\ kind_at ["home"; "out.json"] (w_fs w') = Some (KFile (CResults [] [])).
Proof.
  split; [exact ex_sane|]. split; [discriminate|].
  exists (mkOutput "json" (GeJSON "out") [("filePath", VStr "out")]).
  split; [now left|]. split; [reflexivity|]. vm_compute. split; reflexivity.
Qed.
