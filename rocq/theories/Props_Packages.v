(** The package tree: C51; and loading packages: C62. *)
From Coq Require Import List String Ascii Bool Arith Lia.
From Verif Require Import BaseStr BaseMap M_Types M_Parse M_Packages S_Packages P_Parse P_Path P_Packages.
Import ListNotations.
Local Open Scope string_scope.

(** C51: after any calls, a path is found exactly when it or one below it was added. *)
Theorem C51_found :
  forall A m path, later NewPackageManager A m ->
    ((exists q, Find m path = Some q) <-> exists a, In a A /\ at_or_above path a).
Proof.
  intros A m path H. destruct (later_done _ _ _ wf_new H) as (W & G & O & F). split.
  - intros (q & Q). rewrite Find_steps in Q by auto. destruct (O _ _ (split_not_nil "/" path) Q) as [X|(a & x & I & E)].
    + exfalso. destruct (split "/" path) eqn:S; [now apply (split_not_nil "/" path)|discriminate].
    + exists a. split; auto. apply at_or_above_split. eauto.
  - intros (a & I & AB). apply at_or_above_split in AB as (x & E). destruct (F a I) as (q & Q). rewrite E, findSteps_app in Q.
    rewrite Find_steps by auto. destruct (findSteps m 0 (split "/" path)); eauto; discriminate.
Qed.
Print Assumptions C51_found.

(** C51: what is added is what is then found; adding again gives it again. *)
Theorem C51_added :
  forall A m path m' q, later NewPackageManager A m -> AddPackage m path = (m', q) \/ FindOrAdd m path = (m', q) ->
    Find m' path = Some q /\ FindOrAdd m' path = (m', q) /\ AddPackage m' path = (m', q).
Proof.
  intros A m path m' q H E. destruct (later_done _ _ _ wf_new H) as (W & _).
  assert (X : wf m' /\ findSteps m' 0 (split "/" path) = Some q).
  { destruct E as [E|E]; [apply addPackage_spec in E|apply findOrAdd_spec in E]; auto; destruct E as (D & F & _); split; auto; apply D. }
  destruct X as (W' & F). assert (FD : Find m' path = Some q) by now rewrite Find_steps. split; auto.
  split; [unfold FindOrAdd; now rewrite FD|].
  assert (G : forall steps p, findSteps m' p steps = Some q -> addSteps m' p steps = (m', q)).
  { induction steps as [|s steps IH]; intros p; cbn; [now intros [= ->]|]. destruct (edge m' p s); [auto|discriminate]. }
  now apply G.
Qed.
Print Assumptions C51_added.

(** C51: the same path always gives the same package, however much is added or loaded later; and a package that is loaded
    stays loaded. *)
Theorem C51_same :
  forall A m B m' path q, later NewPackageManager A m -> later m B m' -> Find m path = Some q ->
    Find m' path = Some q /\ forall k, n_package (node m q) = Some k -> n_package (node m' q) = Some k.
Proof.
  intros A m B m' path q H H' F. destruct (later_done _ _ _ wf_new H) as (W & _).
  destruct (later_done _ _ _ W H') as (W' & G & _). rewrite Find_steps in * by auto. split; [now apply (grows_found m)|].
  intros k K. destruct (found_node _ _ _ W F) as (L & _). now apply (gr_node _ _ G q L).
Qed.
Print Assumptions C51_same.

(** C51: different paths have different packages. *)
Theorem C51_distinct :
  forall A m p p' q, later NewPackageManager A m -> Find m p = Some q -> Find m p' = Some q -> p = p'.
Proof.
  intros A m p p' q H F F'. destruct (later_done _ _ _ wf_new H) as (W & _). rewrite Find_steps in * by auto.
  apply (split_inj "/"). now apply (found_inj m _ _ q).
Qed.
Print Assumptions C51_distinct.

(** C51: the package found reports the path.  Missing: paths that end in a slash (refuted below), which Go imports never do. *)
Theorem C51_path_partial :
  forall A m path q fuel, later NewPackageManager A m -> Find m path = Some q -> no_final_slash path -> q < fuel ->
    Path fuel m q = Ok path.
Proof.
  intros A m path q fuel H F NS LT. destruct (later_done _ _ _ wf_new H) as (W & _). rewrite Find_steps in * by auto.
  destruct (split_last_list (split "/" path)) as [E|(l & s & E)]; [now apply split_not_nil in E|].
  assert (J := join_split "/" path). rewrite E in F, J. change (str1 "/") with "/" in J. destruct (String.eqb s "") eqn:S.
  - apply String.eqb_eq in S; subst s. destruct (split_last_list l) as [->|(l' & s' & ->)].
    + cbn in J. subst path. assert (Q := F). cbn [app] in Q.
      destruct fuel as [|[|fuel]]; [lia| |].
      * apply found_node in Q as (_ & Q); auto. assert (q = 0) by lia. now apply Q in H0.
      * rewrite (Path_empty m [] q 0 (S fuel) W F eq_refl). unfold Path. cbn. now rewrite (proj2 (wf_root m W)).
    + exfalso. apply (NS (join "/" (l' ++ [s']))). rewrite <- J. clear.
      induction l' as [|b [|c l'] IH]; [reflexivity|cbn; now rewrite ?append_assoc|].
      cbn [app] in *. rewrite !join_cons, IH. now rewrite !append_assoc.
  - apply String.eqb_neq in S. rewrite (Path_spec m l s q fuel W F LT S). now rewrite J.
Qed.
Print Assumptions C51_path_partial.

(** C51: going up always ends. *)
Theorem C51_path_ends :
  forall A m q fuel, later NewPackageManager A m -> q < List.length m -> q < fuel -> exists path, Path fuel m q = Ok path.
Proof. intros A m q fuel H. destruct (later_done _ _ _ wf_new H) as (W & _). now apply Path_total. Qed.
Print Assumptions C51_path_ends.

(** C51, refuted: a package added as a/ says it is a, which is another one. *)
Theorem C51_refuted :
  exists m m' q q', AddPackage NewPackageManager "a" = (m, q) /\ AddPackage m "a/" = (m', q') /\
    q <> q' /\ Find m' "a/" = Some q' /\ Path 9 m' q' = Ok "a" /\ Path 9 m' q = Ok "a".
Proof. repeat eexists. discriminate. Qed.
Print Assumptions C51_refuted.

(** C51: getting a package loads it once, records a file for each of its files, with each import at the package of its path, and
    nothing about other packages; getting it again changes nothing. *)
Theorem C51_get :
  forall A m p loaders disk fuel workDir cache m' cache' pkg,
    later NewPackageManager A m -> p < List.length m -> n_package (node m p) = None -> n_files (node m p) = [] ->
    Get loaders disk fuel workDir m cache p = Ok (m', cache', pkg) ->
    n_package (node m' p) = Some pkg /\
    Forall2 (Forall2 (fun i q => Find m' (trim quote i) = Some q)) pkg (n_files (node m' p)) /\
    (forall r, r < List.length m -> r <> p -> n_package (node m' r) = n_package (node m r) /\ n_files (node m' r) = n_files (node m r)) /\
    forall loaders' disk' fuel' workDir' cache2, Get loaders' disk' fuel' workDir' m' cache2 p = Ok (m', cache2, pkg).
Proof.
  intros A m p loaders disk fuel wd cache m' cache' pkg H L NP NF E. destruct (later_done _ _ _ wf_new H) as (W & _).
  apply get_spec in E as (P & E); auto. rewrite NP, NF in E. destruct E as (D & (fs & Q & I) & N & O & _). cbn [app] in Q.
  split; auto. split; [|split; [exact O|intros; unfold Get; now rewrite P]].
  rewrite Q. destruct D as (W' & _). clear -I W'. unfold imports_found in I.
  induction I as [|f fl pkg fs H _ IH]; constructor; auto. induction H; constructor; auto. now rewrite Find_steps.
Qed.
Print Assumptions C51_get.

(** C51: a package has files recorded only once it is loaded, whatever was called. *)
Theorem C51_files :
  forall A m p, later NewPackageManager A m -> n_package (node m p) = None -> n_files (node m p) = [].
Proof.
  intros A m p H. revert p. induction H as [|l m1 a m2 H IH C]; intros p NP.
  { destruct p as [|[|p]]; reflexivity. }
  destruct (later_done _ _ _ wf_new H) as (W & _).
  destruct (Nat.lt_ge_cases p (nodes m2)) as [L2|L2]; [|now rewrite node_over].
  assert (G : (forall r, nodes m1 <= r < nodes m2 -> n_package (node m2 r) = None /\ n_files (node m2 r) = []) ->
    (forall r, r < nodes m1 -> n_package (node m2 r) = None -> n_package (node m1 r) = None /\ n_files (node m2 r) = n_files (node m1 r)) ->
    n_files (node m2 p) = []).
  { intros V1 V2. destruct (Nat.lt_ge_cases p (nodes m1)) as [L1|L1]; [|apply V1; lia].
    destruct (V2 p L1 NP) as (X & ->). now apply IH. }
  destruct C as [path m2 q E|path m2 q E|loaders disk fuel wd cache p0 m2 cache' pkg L E].
  - apply addPackage_spec in E as (_ & _ & V1 & V2); auto. apply G; auto. intros r R K. destruct (V2 r R) as (X & Y). rewrite X in K. auto.
  - apply findOrAdd_spec in E as (_ & _ & V1 & V2); auto. apply G; auto. intros r R K. destruct (V2 r R) as (X & Y). rewrite X in K. auto.
  - apply get_spec in E as (P & E); auto. destruct (n_package (node m1 p0)).
    + destruct E as (-> & _). now apply IH.
    + destruct E as (_ & _ & V1 & V2 & _). apply G; auto. intros r R K. destruct (Nat.eq_dec r p0) as [->|NR]; [congruence|].
      destruct (V2 r R NR) as (X & Y). rewrite X in K. auto.
Qed.
Print Assumptions C51_files.

(** C51: what is loaded for a path is what is on disk for it or has been loaded for it before; for another path only if a loader
    says so, and then the first that does. *)
Theorem C51_loaded :
  forall A m path p loaders disk fuel workDir cache m' cache' pkg,
    later NewPackageManager A m -> Find m path = Some p -> no_final_slash path -> p < fuel -> n_package (node m p) = None ->
    Get loaders disk fuel workDir m cache p = Ok (m', cache', pkg) ->
    exists path', resolves path loaders path' /\
      ((mlookup path' cache = Some pkg /\ cache' = cache) \/
       (mlookup path' cache = None /\ disk workDir path' = Some pkg /\
        mlookup path' cache' = Some pkg /\ forall k, k <> path' -> mlookup k cache' = mlookup k cache)).
Proof.
  intros A m path p loaders disk fuel wd cache m' cache' pkg H F NS LT NP E.
  assert (PA := C51_path_partial A m path p fuel H F NS LT). destruct (later_done _ _ _ wf_new H) as (W & _).
  assert (L : p < List.length m) by (rewrite Find_steps in F by auto; now apply found_node in F).
  apply get_spec in E as (_ & E); auto. rewrite NP in E. destruct E as (_ & _ & _ & _ & path0 & P0 & LP).
  rewrite PA in P0. injection P0 as <-. exists (loadedPath loaders path). split; [apply loadedPath_resolves|].
  unfold LoadPackage in LP. destruct (mlookup _ cache) as [k|] eqn:M; [injection LP as <- <-; auto|].
  destruct (disk wd _) as [k|] eqn:D; [|discriminate]. injection LP as <- <-. right. repeat split; auto.
  - apply mlookup_insert_eq.
  - intros q N. apply mlookup_insert_ne. congruence.
Qed.
Print Assumptions C51_loaded.

(** C51: each import of a loaded package leads to the package of the path between its quotes. *)
Theorem C51_imports :
  forall A m p loaders disk fuel workDir cache m' cache' files,
    later NewPackageManager A m -> p < List.length m -> n_package (node m p) = None ->
    Forall (Forall (fun path => has_char (ascii_of_nat 34) path = false)) files ->
    Get loaders disk fuel workDir m cache p = Ok (m', cache', map (map written) files) ->
    Forall2 (Forall2 (fun path q => Find m' path = Some q)) files (n_files (node m' p)).
Proof.
  intros A m p loaders disk fuel wd cache m' cache' files H L NP PL E.
  destruct (C51_get _ _ _ _ _ _ _ _ _ _ _ H L NP (C51_files _ _ _ H NP) E) as (_ & I & _).
  assert (M : forall (X Y Z : Type) (P : X -> Prop) (R : Y -> Z -> Prop) (Q : X -> Z -> Prop) (f : X -> Y) l zs,
    (forall x z, P x -> R (f x) z -> Q x z) -> Forall P l -> Forall2 R (map f l) zs -> Forall2 Q l zs).
  { clear. intros X Y Z P R Q f l zs IMP. revert zs. induction l as [|x l IH]; intros zs HP HR; cbn [map] in HR; inversion HR; subst; constructor.
    - inversion HP; subst; auto.
    - inversion HP; subst. now apply IH. }
  apply (M _ _ _ _ _ _ (map written) _ _) with (2 := PL) (3 := I). intros f fs PF IF.
  apply (M _ _ _ _ _ _ written _ _) with (2 := PF) (3 := IF). intros path q PQ. now rewrite (trim_written path PQ).
Qed.
Print Assumptions C51_imports.

(** A history with shared parts and a loaded package that imports one known and one new path. *)
Example C51_nontrivial :
  let disk := fun (_ path : string) => if String.eqb path "example.com/app/b" then Some [["""example.com/app/a"""; """fmt"""]] else None in
  let m1 := fst (AddPackage NewPackageManager "example.com/app/a") in
  let m2 := fst (FindOrAdd m1 "example.com/app/b") in
  exists m3 c k, Get [] disk 9 "/home" m2 [] 4 = Ok (m3, c, k) /\
    later NewPackageManager ["example.com/app/a"; "example.com/app/b"; "example.com/app/a"; "fmt"] m3 /\
    Find m3 "example.com/app/b" = Some 4 /\ Path 9 m3 4 = Ok "example.com/app/b" /\
    Find m3 "example.com/app" = Some 2 /\ Find m3 "example.com/ap" = None /\ n_files (node m3 4) = [[3; 5]] /\ Path 9 m3 5 = Ok "fmt".
Proof.
  cbn zeta. set (m1 := fst (AddPackage NewPackageManager "example.com/app/a")). set (m2 := fst (FindOrAdd m1 "example.com/app/b")).
  set (disk := fun _ path : string => _). pose (X := Get [] disk 9 "/home" m2 [] 4).
  destruct X as [[[m3 c] k]| | |] eqn:E; try (exfalso; now vm_compute in E). exists m3, c, k. split; [exact E|].
  split.
  - change ["example.com/app/a"; "example.com/app/b"; "example.com/app/a"; "fmt"] with
      ((([] ++ ["example.com/app/a"]) ++ ["example.com/app/b"]) ++ ["example.com/app/a"; "fmt"])%list.
    eapply later_call; [eapply later_call; [eapply later_call; [apply later_now|]|]|].
    + apply (called_add _ _ m1 3). reflexivity.
    + apply (called_find_or_add _ _ m2 4). reflexivity.
    + assert (C := called_get m2 [] disk 9 "/home" [] 4 m3 c k). assert (L : 4 < nodes m2) by (vm_compute; lia).
      specialize (C L E). assert (K : k = [["""example.com/app/a"""; """fmt"""]]) by (vm_compute in E; congruence).
      subst k. exact C.
  - vm_compute in E. injection E as <- <- <-. repeat split.
Qed.

(** ** Loading *)

(** Loads in one process: of which paths, in which working directories. *)
Inductive loads (disk : string -> string -> option package) : list (string * string) -> cachedPackages -> Prop :=
| loads_none : loads disk [] []
| loads_failed l c path wd : loads disk l c -> LoadPackage disk path wd c = None -> loads disk (l ++ [(path, wd)]) c
| loads_one l c path wd pkg c' :
    loads disk l c -> LoadPackage disk path wd c = Some (pkg, c') -> loads disk (l ++ [(path, wd)]) c'.

(** C62, for a process that uses one working directory: a package loaded is the one there, and none that is there fails to load. *)
Theorem C62_one_directory_partial :
  forall disk l c path wd,
    loads disk l c -> (forall p d, In (p, d) l -> d = wd) ->
    option_map fst (LoadPackage disk path wd c) = disk wd path.
Proof.
  intros disk l c path wd H A.
  assert (G : forall k v, mlookup k c = Some v -> disk wd k = Some v).
  { induction H as [|l c p d H IH E|l c p d pkg c' H IH E]; intros k v K.
    - discriminate.
    - apply IH; auto. intros. eapply A. apply in_app_iff. left. eauto.
    - assert (AL : forall p d, In (p, d) l -> d = wd) by (intros; eapply A; apply in_app_iff; left; eauto).
      assert (D : d = wd) by (apply (A p); apply in_app_iff; right; now left). subst d.
      unfold LoadPackage in E. destruct (mlookup p c) eqn:M; [injection E as <- <-; now apply IH|].
      destruct (disk wd p) eqn:DK; [|discriminate]. injection E as <- <-. rewrite mlookup_insert in K.
      destruct (String.eqb p k) eqn:PK; [|now apply IH]. apply String.eqb_eq in PK; subst. congruence. }
  unfold LoadPackage. destruct (mlookup path c) eqn:M; [symmetry; now apply G|]. now destruct (disk wd path).
Qed.
Print Assumptions C62_one_directory_partial.

(** C62: once loaded, a path gives the same package for the rest of the process, whatever the directory, and even if it can no longer
    be loaded. *)
Theorem C62_sticky :
  forall disk l c path wd pkg c' wd' disk',
    loads disk l c -> LoadPackage disk path wd c = Some (pkg, c') -> LoadPackage disk' path wd' c' = Some (pkg, c').
Proof.
  intros disk l c path wd pkg c' wd' disk' _ E. unfold LoadPackage in E |- *. destruct (mlookup path c) eqn:M.
  - injection E as <- <-. now rewrite M.
  - destruct (disk wd path); [|discriminate]. injection E as <- <-. now rewrite mlookup_insert_eq.
Qed.
Print Assumptions C62_sticky.

(** C62, refuted: a second service with another working directory gets the package of the first. *)
Theorem C62_refuted :
  exists disk c path wd pkg,
    loads disk [(path, "/one")] c /\ disk wd path = Some pkg /\
    option_map fst (LoadPackage disk path wd c) <> disk wd path.
Proof.
  exists (fun d _ => Some [[d]]), [("example.com/app", [["/one"]])], "example.com/app", "/two", [["/two"]].
  split; [|split; [reflexivity|discriminate]].
  change [("example.com/app", "/one")] with ([] ++ [("example.com/app", "/one")])%list.
  eapply loads_one with (pkg := [["/one"]]); [constructor|reflexivity].
Qed.
Print Assumptions C62_refuted.

(** Hypotheses of C62_one_directory_partial: two loads, one of them failing. *)
Example C62_nontrivial :
  let disk := fun d path : string => if String.eqb path "a" then Some [[d]] else None in
  exists c, loads disk [("a", "/one"); ("b", "/one")] c /\ option_map fst (LoadPackage disk "a" "/one" c) = Some [["/one"]].
Proof.
  intros disk. exists [("a", [["/one"]])]. split; [|reflexivity].
  change [("a", "/one"); ("b", "/one")] with (([] ++ [("a", "/one")]) ++ [("b", "/one")])%list.
  eapply loads_failed; [|reflexivity]. eapply loads_one with (pkg := [["/one"]]); [constructor|reflexivity].
Qed.

(** Hypotheses of C51_loaded and C51_imports: a package loaded under the path the second loader gives. *)
Example C51_loaded_nontrivial :
  let disk := fun (_ path : string) => if String.eqb path "example.com/app/.astra/astramain" then Some (map (map written) [["fmt"; "example.com/app/a"]]) else None in
  let loaders := [fun _ : string => None; fun path : string => if String.eqb path "main" then Some "example.com/app/.astra/astramain" else None;
                  fun _ : string => Some "elsewhere"] in
  let m := fst (AddPackage NewPackageManager "main") in
  later NewPackageManager ["main"] m /\ Find m "main" = Some 1 /\ no_final_slash "main" /\ n_package (node m 1) = None /\
  resolves "main" loaders "example.com/app/.astra/astramain" /\
  match Get loaders disk 9 "/home" m [] 1 with
  | Ok (m', _, pkg) => pkg = map (map written) [["fmt"; "example.com/app/a"]] /\ n_files (node m' 1) = [[2; 5]] /\ Find m' "example.com/app/a" = Some 5
  | _ => False
  end.
Proof.
  cbv zeta. split.
  { change ["main"] with ([] ++ ["main"])%list. eapply later_call; [constructor|]. eapply called_add. apply surjective_pairing. }
  split; [reflexivity|]. split.
  { intros q E. do 4 (destruct q as [|? q]; [discriminate|injection E as <- E]). destruct q; discriminate. }
  split; [reflexivity|]. split.
  { apply resolves_next; [reflexivity|]. now apply resolves_first. }
  vm_compute. auto.
Qed.
