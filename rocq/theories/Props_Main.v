(** The temporary main package: C52. *)
From Coq Require Import List String Ascii Bool ZArith Arith Lia.
From Verif Require Import BaseStr BaseMap M_Types M_Collect M_OpenAPI M_Parse M_Clean M_FS M_Service S_Cache S_Files S_Main S_Example
  P_FS P_Path P_Act P_Frame P_Azure P_Main.
Import ListNotations.
Local Open Scope string_scope.

Definition main_place_of (s : Service) (w : World) : list string := (work_dir s w ++ [".astra"; "astramain"])%list.

(** C52: the copied package has exactly the Go files of the working directory, each with all occurrences of package main, and
    only those, replaced; there is nothing else in it and nothing outside it has changed. *)
Theorem C52_copies :
  forall env s w s' w',
    sane w -> setupTempMainPackage env s w = (Ok tt, s', w') ->
    let D := main_place_of s w in
    kind_at D (w_fs w') = Some KDir /\
    (forall f text, has_suffix ".go" f = true -> kind_at (work_dir s w ++ [f]) (w_fs w) = Some (KFile (CBytes text)) ->
       exists text', kind_at (D ++ [f]) (w_fs w') = Some (KFile (CBytes text')) /\
         all_replaced "package main" "package astramain" text text') /\
    (forall f x, kind_at (D ++ f :: x) (w_fs w') <> None ->
       x = [] /\ has_suffix ".go" f = true /\ exists c, kind_at (work_dir s w ++ [f]) (w_fs w) = Some (KFile c)) /\
    (forall q, ~ inside D q -> kind_at q (w_fs w') = kind_at q (w_fs w)).
Proof.
  intros env s w s' w' S E D. destruct (setupMain_ok _ _ _ _ _ S E) as (_ & _ & KD & KG & KN & KO & _).
  fold (main_place_of s w) in *. fold D in KD, KG, KN, KO. split; auto. split; [|split].
  - intros f text G K. destruct (KG f) as (c & A1 & A2); [congruence|auto|]. rewrite K in A1. injection A1 as <-.
    eexists. split; [exact A2|]. apply replace_all_spec. discriminate.
  - intros f x K. destruct (is_go f) eqn:G; [|now rewrite KN in K by auto].
    destruct (kind_at (work_dir s w ++ [f]) (w_fs w)) as [k|] eqn:KF; [|now rewrite KN in K by auto].
    destruct (KG f) as (c & A1 & A2); [congruence|auto|]. split; [|split; auto; exists c; congruence].
    destruct x as [|y x]; auto. exfalso. apply K. change (f :: y :: x) with ([f] ++ y :: x)%list. rewrite app_assoc.
    eapply kind_file_below; eauto. discriminate.
  - intros q N. apply KO. destruct (is_prefix D q) eqn:P; auto. exfalso. apply N. apply is_prefix_spec in P. exact P.
Qed.
Print Assumptions C52_copies.

(** C52: it works when no call fails, the directories are there and no Go or mod file is a directory. *)
Theorem C52_succeeds :
  forall env s w,
    (forall n, e_fault env n = None) -> sane w -> sv_workDir s <> "" ->
    kind_at (work_dir s w ++ [".astra"]) (w_fs w) = Some KDir ->
    (forall f, has_suffix ".go" f = true \/ has_suffix ".mod" f = true -> kind_at (work_dir s w ++ [f]) (w_fs w) <> Some KDir) ->
    exists s' w', setupTempMainPackage env s w = (Ok tt, s', w').
Proof. exact setupMain_works. Qed.
Print Assumptions C52_succeeds.

(** C52: with one space between the keyword and the name, and no comment before that has the text package main, the clause is
    renamed; what follows changes only where package main occurs. *)
Theorem C52_clause :
  forall env s w s' w' f text pre post,
    sane w -> setupTempMainPackage env s w = (Ok tt, s', w') ->
    has_suffix ".go" f = true -> kind_at (work_dir s w ++ [f]) (w_fs w) = Some (KFile (CBytes text)) ->
    clause text pre " " "main" post -> contains "package main" pre = false ->
    exists text' post', kind_at (main_place_of s w ++ [f]) (w_fs w') = Some (KFile (CBytes text')) /\
      clause text' pre " " "astramain" post' /\ all_replaced "package main" "package astramain" post post'.
Proof.
  intros env s w s' w' f text pre post S E G K (T & B1 & B2 & B3 & B4 & B5 & B6) N.
  destruct (setupMain_ok _ _ _ _ _ S E) as (_ & _ & _ & KG & _). fold (main_place_of s w) in KG.
  destruct (KG f) as (c & A1 & A2); [congruence|auto|]. rewrite K in A1. injection A1 as <-.
  change (text = pre ++ "package main" ++ post) in T. destruct (copied_clause pre post N) as (post' & C & R).
  rewrite T in A2. rewrite C in A2. exists (pre ++ "package astramain" ++ post'), post'. split; auto. split; auto.
  split; [reflexivity|]. repeat split; auto; try discriminate.
  destruct R as (first & rest & E1 & E2 & _). subst post post'.
  destruct rest as [|r rest]; [exact B6|]. rewrite join_cons in *. destruct first as [|x first]; [discriminate|exact B6].
Qed.
Print Assumptions C52_clause.

(** C52: if besides package main occurs nowhere, the clause is renamed and nothing else changed. *)
Theorem C52_renamed_partial :
  forall env s w s' w' f text pre post,
    sane w -> setupTempMainPackage env s w = (Ok tt, s', w') ->
    has_suffix ".go" f = true -> kind_at (work_dir s w ++ [f]) (w_fs w) = Some (KFile (CBytes text)) ->
    clause text pre " " "main" post -> contains "package main" pre = false -> contains "package main" post = false ->
    exists text', kind_at (main_place_of s w ++ [f]) (w_fs w') = Some (KFile (CBytes text')) /\ renamed "main" "astramain" text text'.
Proof.
  intros env s w s' w' f text pre post S E G K CL N1 N2.
  destruct (setupMain_ok _ _ _ _ _ S E) as (_ & _ & _ & KG & _). fold (main_place_of s w) in KG.
  destruct (KG f) as (c & A1 & A2); [congruence|auto|]. rewrite K in A1. injection A1 as <-.
  assert (T := proj1 CL). change (text = pre ++ "package main" ++ post) in T.
  exists (pre ++ "package astramain" ++ post). split; [|exists pre, " ", post; auto].
  rewrite A2. do 2 f_equal. rewrite T. unfold copied. f_equal.
  rewrite replace_after; [|discriminate|intros x y; now apply no_overlap]. now rewrite replace_absent.
Qed.
Print Assumptions C52_renamed_partial.

Definition ex_main (go_mod : string) (others : list (string * tree content)) (main : string) : World :=
  mkWorld (Dir [("home", Dir ([(".astra", Dir []); ("go.mod", File (CBytes go_mod)); ("main.go", File (CBytes main))] ++ others))]) ["home"] [] 0 [] [].
Definition ex_home : Service := WithCustomWorkDir "/home" emptyService.
Lemma renamed_longer text text' : renamed "main" "astramain" text text' -> String.length text' = String.length text + 5.
Proof. intros (pre & gap & post & (-> & _) & ->). rewrite !length_append. cbn. lia. Qed.

(** C52, refuted: a text in the program is changed, so that it behaves differently; a clause with another space is not renamed. *)
Theorem C52_text_refuted :
  exists env s w s' w' f text text' post,
    sane w /\ setupTempMainPackage env s w = (Ok tt, s', w') /\ has_suffix ".go" f = true /\
    kind_at (work_dir s w ++ [f]) (w_fs w) = Some (KFile (CBytes text)) /\ clause text "" " " "main" post /\
    kind_at (main_place_of s w ++ [f]) (w_fs w') = Some (KFile (CBytes text')) /\ ~ renamed "main" "astramain" text text'.
Proof.
  pose (main := "package main" ++ nl ++ "var s = ""package main""" ++ nl).
  pose (w := ex_main ("module m" ++ nl) [] main). pose (X := setupTempMainPackage (ex_env no_fault) ex_home w).
  exists (ex_env no_fault), ex_home, w, (snd (fst X)), (snd X), "main.go", main. eexists. eexists.
  split; [split; [repeat constructor; discriminate|apply plain_entries_spec; reflexivity]|].
  split; [vm_compute; reflexivity|]. split; [reflexivity|]. split; [reflexivity|].
  split; [split; [vm_compute; reflexivity|]; repeat split; try discriminate; repeat (constructor; auto)|].
  split; [vm_compute; reflexivity|]. intros R. apply renamed_longer in R. vm_compute in R. discriminate.
Qed.
Print Assumptions C52_text_refuted.

Theorem C52_gap_refuted :
  exists env s w s' w' f text post,
    sane w /\ setupTempMainPackage env s w = (Ok tt, s', w') /\ has_suffix ".go" f = true /\
    kind_at (work_dir s w ++ [f]) (w_fs w) = Some (KFile (CBytes text)) /\ clause text "" "  " "main" post /\
    kind_at (main_place_of s w ++ [f]) (w_fs w') = Some (KFile (CBytes text)).
Proof.
  pose (main := "package  main" ++ nl).
  pose (w := ex_main ("module m" ++ nl) [] main). pose (X := setupTempMainPackage (ex_env no_fault) ex_home w).
  exists (ex_env no_fault), ex_home, w, (snd (fst X)), (snd X), "main.go", main. eexists.
  split; [split; [repeat constructor; discriminate|apply plain_entries_spec; reflexivity]|].
  split; [vm_compute; reflexivity|]. split; [reflexivity|]. split; [reflexivity|].
  split; [split; [vm_compute; reflexivity|]; repeat split; try discriminate; repeat (constructor; auto)|].
  vm_compute. reflexivity.
Qed.
Print Assumptions C52_gap_refuted.

(** C52: the import path ends with the temporary directory, whatever go.mod says: it has a slash. *)
Theorem C52_import_path :
  forall env s w s' w',
    sane w -> setupTempMainPackage env s w = (Ok tt, s', w') ->
    has_suffix ".astra/astramain" (sv_tempMain s') = true /\ has_char "/" (sv_tempMain s') = true.
Proof.
  intros env s w s' w' S E. destruct (setupMain_ok _ _ _ _ _ S E) as (_ & _ & _ & _ & _ & _ & _ & _ & p & ->).
  destruct (temp_suffix p) as (a & ->). split; [apply has_suffix_spec; eauto|]. rewrite has_char_append. cbn. apply orb_true_r.
Qed.
Print Assumptions C52_import_path.

(** C52: if the module is declared on the first line of go.mod, and no other mod file comes after it, the import path is the
    module path followed by the temporary directory. *)
Theorem C52_import_partial :
  forall env s w s' w' text path post,
    sane w -> sorted_tree (w_fs w) -> setupTempMainPackage env s w = (Ok tt, s', w') ->
    kind_at (work_dir s w ++ ["go.mod"]) (w_fs w) = Some (KFile (CBytes text)) ->
    (forall f, has_suffix ".mod" f = true -> kind_at (work_dir s w ++ [f]) (w_fs w) <> None -> f = "go.mod" \/ str_lt f "go.mod") ->
    declares text path -> text = "module " ++ path ++ String line_end post -> Forall plain_name (split "/" path) ->
    sv_tempMain s' = path ++ "/.astra/astramain".
Proof.
  intros env s w s' w' text path post S SO E K U (_ & _ & _ & _ & _ & NW) T F.
  destruct (setupMain_ok _ _ _ _ _ S E) as (_ & _ & _ & _ & _ & _ & _ & M & _).
  destruct (M "go.mod") as (c & A1 & A2); [auto|congruence| |].
  { intros g G KG. destruct (U g G KG); auto. }
  rewrite K in A1. injection A1 as <-. rewrite A2, T, moduleName_first; [now apply temp_plain|].
  destruct (has_char line_end path) eqn:H; auto. apply NW in H. discriminate.
Qed.
Print Assumptions C52_import_partial.

(** C52, refuted: with a comment on the first line, the import path is made from the comment. *)
Theorem C52_import_refuted :
  exists env s w s' w' text path,
    sane w /\ setupTempMainPackage env s w = (Ok tt, s', w') /\
    kind_at (work_dir s w ++ ["go.mod"]) (w_fs w) = Some (KFile (CBytes text)) /\
    declares text path /\ sv_tempMain s' = "/ our module/.astra/astramain".
Proof.
  pose (go_mod := "// our module" ++ nl ++ "module m" ++ nl).
  pose (w := ex_main go_mod [] ("package main" ++ nl)). pose (X := setupTempMainPackage (ex_env no_fault) ex_home w).
  exists (ex_env no_fault), ex_home, w, (snd (fst X)), (snd X), go_mod, "m".
  split; [split; [repeat constructor; discriminate|apply plain_entries_spec; reflexivity]|].
  split; [vm_compute; reflexivity|]. split; [reflexivity|]. split; [|vm_compute; reflexivity].
  exists ("// our module" ++ nl), "". split; [reflexivity|]. split; [|split; [discriminate|]].
  - apply (comment_line " our module" ""); [reflexivity|constructor].
  - intros c H. cbn [has_char] in H. rewrite orb_false_r in H. apply Ascii.eqb_eq in H. subst c. reflexivity.
Qed.
Print Assumptions C52_import_refuted.

(** C52, refuted: another mod file, later in the order of names, is taken for go.mod. *)
Theorem C52_other_mod_refuted :
  exists env s w s' w' text path post,
    sane w /\ setupTempMainPackage env s w = (Ok tt, s', w') /\
    kind_at (work_dir s w ++ ["go.mod"]) (w_fs w) = Some (KFile (CBytes text)) /\
    declares text path /\ text = "module " ++ path ++ String line_end post /\ sv_tempMain s' <> path ++ "/.astra/astramain".
Proof.
  pose (go_mod := "module m" ++ nl).
  pose (w := ex_main go_mod [("tools.mod", File (CBytes ("module m/tools" ++ nl)))] ("package main" ++ nl)).
  pose (X := setupTempMainPackage (ex_env no_fault) ex_home w).
  exists (ex_env no_fault), ex_home, w, (snd (fst X)), (snd X), go_mod, "m", "".
  split; [split; [repeat constructor; discriminate|apply plain_entries_spec; reflexivity]|].
  split; [vm_compute; reflexivity|]. split; [reflexivity|]. split; [|split; [reflexivity|vm_compute; discriminate]].
  exists "", "". split; [reflexivity|]. split; [constructor|split; [discriminate|]].
  intros c H. cbn [has_char] in H. rewrite orb_false_r in H. apply Ascii.eqb_eq in H. subst c. reflexivity.
Qed.
Print Assumptions C52_other_mod_refuted.

(** A program of two files with comments, a directory, another file, and an old copy that goes. *)
Example C52_nontrivial :
  let main := "// Command app" ++ nl ++ "package main // here" ++ nl ++ "import ""fmt""" ++ nl in
  let t := Dir [("home", Dir [(".astra", Dir [("astramain", Dir [("old.go", File (CBytes ""))])]);
                              ("cmd", Dir [("x.go", File (CBytes ("package main" ++ nl)))]);
                              ("go.mod", File (CBytes ("module example.com/app" ++ nl ++ "go 1.21" ++ nl)));
                              ("main.go", File (CBytes main)); ("notes.txt", File (CBytes "mine"));
                              ("util.go", File (CBytes ("package main" ++ nl)))])] in
  let w := mkWorld t ["home"] [] 0 [] [] in
  sane w /\ sorted_tree (w_fs w) /\
  clause main ("// Command app" ++ nl) " " "main" (" // here" ++ nl ++ "import ""fmt""" ++ nl) /\
  let '(r, s', w') := setupTempMainPackage (ex_env no_fault) ex_home w in
  r = Ok tt /\ sv_tempMain s' = "example.com/app/.astra/astramain" /\
  get (main_place_of ex_home w) (w_fs w') =
    Some (Dir [("main.go", File (CBytes ("// Command app" ++ nl ++ "package astramain // here" ++ nl ++ "import ""fmt""" ++ nl)));
               ("util.go", File (CBytes ("package astramain" ++ nl)))]).
Proof.
  cbn zeta. split; [split; [repeat constructor; discriminate|apply plain_entries_spec; reflexivity]|].
  split; [|split; [|vm_compute; repeat split]].
  - cbn. repeat split; repeat constructor.
  - split; [reflexivity|]. repeat split; try discriminate; [|repeat (constructor; auto)].
    apply (blank_line " Command app" ""); [reflexivity|constructor].
Qed.
