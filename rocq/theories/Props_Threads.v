(** C77: goroutines that share a package manager. *)
From Coq Require Import List String Ascii Bool Arith Lia.
From Verif Require Import BaseStr BaseMap M_Types M_Parse M_Packages M_Threads S_Packages S_Threads P_Parse P_Packages P_Threads P_Linear P_Loader.
Import ListNotations.
Local Open Scope string_scope.

(** C77: whatever the interleaving, whenever no goroutine holds the lock the tree is the one that the calls of Find and AddPackage
    make one after the other, in the order in which they return. *)
Theorem C77_linear :
  forall loaders disk workDir work l s, runs loaders disk workDir work l s -> p_mu s = None -> one_by_one l (tree (p_mem s)).
Proof. intros loaders disk workDir work l s H M. destruct (runs_lin _ _ _ _ _ _ H) as (m0 & O & X). rewrite M in X. now subst m0. Qed.
Print Assumptions C77_linear.

(** C77: what a goroutine gets is what one of its calls in that order returned. *)
Theorem C77_got :
  forall loaders disk workDir work l s t g r q, runs loaders disk workDir work l s ->
    nth_error (p_threads s) t = Some g -> In (r, q) (g_got g) ->
    exists h, In (t, h) l /\ (h = HFind (asks r) q \/ exists n, q = Some n /\ h = HAdd (asks r) n).
Proof. intros loaders disk workDir work l s t g r q H. exact (runs_got _ _ _ _ _ _ H t g r q). Qed.
Print Assumptions C77_got.

(** C77: goroutines get the same node exactly for the same path, that of the tree from then on; only Find may get none. *)
Theorem C77_nodes :
  forall loaders disk workDir work l s s' r q, runs loaders disk workDir work l s -> steps loaders disk workDir s s' -> got s r q ->
    match q with
    | Some n => Find (p_mem s') (asks r) = Some n /\ forall r' n', got s' r' (Some n') -> (n = n' <-> asks r = asks r')
    | None => exists path, r = RFind path
    end.
Proof.
  intros loaders disk workDir work l s s' r q H St (g & Ig & G). assert (I := runs_inv _ _ _ _ _ _ H). destruct (steps_inv _ _ _ _ _ I St) as (I' & Gr).
  apply In_nth_error in Ig as (t & Eg). destruct (i_ok _ _ _ _ I _ _ Eg) as (_ & GO). specialize (GO _ _ G). destruct q as [n|]; auto.
  assert (W' := i_wf _ _ _ _ I'). assert (F : findSteps (p_mem s') 0 (split "/" (asks r)) = Some n) by (apply (grows_found (p_mem s)); auto; apply (i_wf _ _ _ _ I)).
  split; [now rewrite Find_steps|]. intros r' n' (g' & Ig' & G'). apply In_nth_error in Ig' as (t' & Eg'). destruct (i_ok _ _ _ _ I' _ _ Eg') as (_ & GO').
  specialize (GO' _ _ G'). cbn in GO'. split.
  - intros <-. apply (split_inj "/"). now apply (found_inj (p_mem s') _ _ n).
  - intros E. rewrite E in F. congruence.
Qed.
Print Assumptions C77_nodes.

(** C77: no two goroutines are at the edges of a node at once if one of them writes. *)
Theorem C77_edges :
  forall loaders disk workDir work l s p, runs loaders disk workDir work l s -> ~ race s (LEdges p).
Proof. intros loaders disk workDir work l s p H. apply (no_race_edges loaders disk workDir). exact (runs_inv _ _ _ _ _ _ H). Qed.
Print Assumptions C77_edges.

(** C77: goroutines never wait for each other forever: if none can go on, all have done what they were to do. *)
Theorem C77_progress :
  forall loaders disk workDir work l s, runs loaders disk workDir work l s -> stuck loaders disk workDir s -> finished s.
Proof. intros loaders disk workDir work l s H. apply progress. exact (runs_inv _ _ _ _ _ _ H). Qed.
Print Assumptions C77_progress.

(** C77: no execution goes on forever, whoever is chosen to go on. *)
Theorem C77_ends :
  forall loaders disk workDir (f : nat -> process), ~ forall i, exists t h, tstep loaders disk workDir t (f i) = Some (f (S i), h).
Proof.
  intros loaders disk workDir f H. assert (A := all_end loaders disk workDir (f 0)). remember (f 0) as s eqn:E. revert f H E.
  induction A as [s _ IH]. intros f H ->. apply (IH (f 1)) with (f := fun i => f (S i)); auto.
Qed.
Print Assumptions C77_ends.

(** C77: from any point of any execution, every goroutine comes to its end and is given an answer to all it asked, in its order. *)
Theorem C77_served :
  forall loaders disk workDir work l s, runs loaders disk workDir work l s ->
    exists s', steps loaders disk workDir s s' /\ finished s' /\ map (fun g => map fst (g_got g)) (p_threads s') = work.
Proof.
  intros loaders disk workDir work l s H. revert l H. induction (all_end loaders disk workDir s) as [s _ IH]. intros l H.
  assert (D : stuck loaders disk workDir s \/ exists t s' h, tstep loaders disk workDir t s = Some (s', h)).
  { assert (X : forall k, (forall t, t < k -> tstep loaders disk workDir t s = None) \/ exists t s' h, tstep loaders disk workDir t s = Some (s', h)).
    { induction k as [|k [IHk|IHk]]; auto; [left; lia|]. destruct (tstep loaders disk workDir k s) as [(s', h)|] eqn:E; [right; eauto|]. left. intros t L.
      destruct (Nat.eq_dec t k) as [->|N]; auto. apply IHk. lia. }
    destruct (X (List.length (p_threads s))) as [Y|Y]; auto. left. intros t. destruct (Nat.lt_ge_cases t (List.length (p_threads s))) as [L|L]; auto.
    unfold tstep. now rewrite (proj2 (nth_error_None _ _)). }
  destruct D as [D|(t & s1 & h & E)].
  - exists s. split; [constructor|]. assert (I := runs_inv _ _ _ _ _ _ H). assert (F := progress _ _ _ _ I D). split; auto.
    rewrite <- (runs_asked _ _ _ _ _ _ H). apply map_ext_in. intros g Ig. unfold finished in F. rewrite Forall_forall in F. destruct (F g Ig) as (P & T).
    apply In_nth_error in Ig as (t & Eg). destruct (i_ok _ _ _ _ I _ _ Eg) as (O & _). unfold P_Threads.ok in O. rewrite P in O.
    unfold asked. rewrite T, O. cbn. now rewrite List.app_nil_r.
  - destruct (IH s1) with (l := (l ++ match h with Some x => [(t, x)] | None => [] end)%list) as (s' & A & B); [eauto|econstructor; eauto|].
    exists s'. split; auto. econstructor; eauto.
Qed.
Print Assumptions C77_served.

(** C77: a package that is loaded, by whichever goroutine, is the one on disk at the path that the loaders give for its own,
    and the package of a node never changes. *)
Theorem C77_package :
  forall loaders disk workDir work l s path q pkg, runs loaders disk workDir work l s ->
    Find (p_mem s) path = Some q -> no_final_slash path -> n_package (node (p_mem s) q) = Some pkg ->
    (exists path', resolves path loaders path' /\ disk workDir path' = Some pkg) /\
    forall s', steps loaders disk workDir s s' -> Find (p_mem s') path = Some q /\ n_package (node (p_mem s') q) = Some pkg.
Proof.
  intros loaders disk workDir work l s path q pkg H F NS P. assert (I := runs_inv _ _ _ _ _ _ H). assert (W := i_wf _ _ _ _ I).
  rewrite Find_steps in F by auto. destruct (found_node _ _ _ W F) as (L & _). split.
  - destruct (i_packages _ _ _ _ I q pkg L P) as (path' & (path0 & E & ->) & D). exists (loadedPath loaders path0). split; auto.
    assert (X : path_at (p_mem s) q = Ok path).
    { unfold path_at. apply path_is; auto. }
    rewrite E in X. injection X as ->. apply loadedPath_resolves.
  - intros s' St. destruct (steps_inv _ _ _ _ _ I St) as (I' & Gr). rewrite Find_steps by apply (i_wf _ _ _ _ I'). split; [now apply (grows_found (p_mem s))|]. now apply (gr_node _ _ Gr q L).
Qed.
Print Assumptions C77_package.

(** C77, in part: as long as one goroutine at most loads packages, there are no data races at all. *)
Theorem C77_race_partial :
  forall loaders disk workDir work l s x, one_loader work -> runs loaders disk workDir work l s -> ~ race s x.
Proof. intros loaders disk workDir work l s x O H. eapply loader_no_race; eauto. Qed.
Print Assumptions C77_race_partial.

(** C77, in part: then also, while nobody is loading, each package that is loaded has each of its files once, with the nodes of its imports,
    and no other package has files. *)
Theorem C77_loaded_partial :
  forall loaders disk workDir work l s, one_loader work -> runs loaders disk workDir work l s ->
    Forall (fun g => loading (g_place g) = false) (p_threads s) ->
    forall q, match n_package (node (p_mem s) q) with
              | Some pkg => Forall2 (Forall2 (fun i n => Find (p_mem s) (trim quote i) = Some n)) pkg (n_files (node (p_mem s) q))
              | None => n_files (node (p_mem s) q) = []
              end.
Proof.
  intros loaders disk workDir work l s (t & O) H Q q. destruct (runs_loader _ _ _ _ t O _ _ H) as [_ LM LN]. assert (W := i_wf _ _ _ _ (runs_inv _ _ _ _ _ _ H)).
  assert (C : complete (p_mem s) PIdle).
  { destruct (nth_error (p_threads s) t) as [g|] eqn:Eg; auto. destruct (LM g eq_refl) as (_ & C). apply (complete_at _ (g_place g)); auto.
    rewrite Forall_forall in Q. assert (X := Q g (nth_error_In _ _ Eg)). clear - X. destruct (g_place g); try discriminate X; try reflexivity; cbn in X |- *;
      induction k; cbn in *; auto; discriminate. }
  destruct (Nat.lt_ge_cases q (nodes (p_mem s))) as [L|L]; [|now rewrite node_over]. specialize (C q L). destruct (n_package (node (p_mem s) q)) as [pkg|]; auto.
  destruct C as [C|C]; [discriminate|]. unfold imports_found in C. revert C. generalize (n_files (node (p_mem s) q)). induction pkg as [|f pkg IH]; intros fs C; inversion C as [|? ? ? ? A B]; subst; constructor; auto.
  clear - A W. induction A; constructor; auto. now rewrite Find_steps.
Qed.
Print Assumptions C77_loaded_partial.

(** *** Two goroutines that get the same package *)
Fixpoint exec (loaders : list (string -> option string)) (disk : string -> string -> option package) (workDir : string) (sched : list nat) (l : list (nat * happening)) (s : process) : list (nat * happening) * process :=
  match sched with
  | [] => (l, s)
  | t :: sched => match tstep loaders disk workDir t s with
                  | Some (s', h) => exec loaders disk workDir sched (l ++ match h with Some x => [(t, x)] | None => [] end)%list s'
                  | None => exec loaders disk workDir sched l s
                  end
  end.
Lemma exec_runs loaders disk workDir work sched : forall l s, runs loaders disk workDir work l s ->
  runs loaders disk workDir work (fst (exec loaders disk workDir sched l s)) (snd (exec loaders disk workDir sched l s)).
Proof.
  induction sched as [|t sched IH]; intros l s H; cbn [exec]; auto. destruct (tstep loaders disk workDir t s) as [(s', h)|] eqn:E; auto. apply IH. econstructor; eauto.
Qed.
Definition one_file (_ _ : string) : option package := Some [[written "b"]].
Definition both : list (list request) := [[RAdd "a" true]; [RAdd "a" true]].
(** Both add the package; then both find it not loaded. *)
Definition early : list nat := ([0;0;0;0;0;0] ++ [1;1;1;1;1] ++ [0;1])%list.
Definition turns (n t : nat) : list nat := repeat t n.
Ltac witness sched :=
  let p := eval vm_compute in (exec [] one_file "" sched [] (fresh both)) in
  match p with (?l, ?s) => exists one_file, both, l, s end;
  (split; [exact (exec_runs [] one_file "" both sched [] (fresh both) (runs_start [] one_file "" both))|]).

(** C77, refuted: two goroutines that get one package can be about to write the package of its node at once. *)
Theorem C77_refuted_package :
  exists disk work l s, runs [] disk "" work l s /\ race s (LPackage 1).
Proof. witness (early ++ [0;0;1])%list. eexists 0, 1, _, _, true, true. repeat split; auto. Qed.
Print Assumptions C77_refuted_package.

(** C77, refuted: one can be about to write the cache of packages, which all managers share, while another is about to read it. *)
Theorem C77_refuted_cache :
  exists disk work l s, runs [] disk "" work l s /\ race s LCache.
Proof. witness (early ++ [0])%list. eexists 0, 1, _, _, true, false. repeat split; auto. Qed.
Print Assumptions C77_refuted_cache.

(** C77, refuted: in an execution that comes to its end a package of one file has that file twice. *)
Theorem C77_refuted_files :
  exists disk work l s, runs [] disk "" work l s /\ finished s /\
    exists pkg, n_package (node (p_mem s) 1) = Some pkg /\ List.length pkg = 1 /\ List.length (n_files (node (p_mem s) 1)) = 2.
Proof. witness (early ++ turns 30 0 ++ turns 30 1)%list. split; [repeat constructor|]. eexists. repeat split. Qed.
Print Assumptions C77_refuted_files.

(** C77, refuted: Get can return to a goroutine before the files of the package are there. *)
Theorem C77_refuted_early :
  exists disk work l s, runs [] disk "" work l s /\
    (exists g, nth_error (p_threads s) 1 = Some g /\ g_place g = PIdle /\ g_todo g = [] /\ g_got g = [(RAdd "a" true, Some 1)]) /\
    exists pkg, n_package (node (p_mem s) 1) = Some pkg /\ List.length pkg = 1 /\ n_files (node (p_mem s) 1) = [].
Proof. witness ([0;0;0;0;0;0] ++ [1;1;1;1;1] ++ [0;0;0;0] ++ [1;1])%list. split; eexists; repeat split. Qed.
Print Assumptions C77_refuted_early.

(** The hypotheses are met: one goroutine loads a package with an import while two others find and add others; all come to their end. *)
Definition three : list (list request) := [[RAdd "a" true; RFindOrAdd "b/c" false]; [RFind "b"; RFindOrAdd "a/d" false]; [RFind "a"; RAdd "b" false]].
Example C77_nontrivial :
  one_loader three /\
  exists l s, runs [] one_file "" three l s /\ finished s /\ p_mu s = None /\ Forall (fun g => loading (g_place g) = false) (p_threads s) /\
    List.length l = 9 /\ n_package (node (p_mem s) 1) = Some [[written "b"]] /\ Find (p_mem s) "b/c" <> None /\ stuck [] one_file "" s.
Proof.
  split.
  - exists 0. intros [|[|[|t]]] l r E I G; cbn in E; try discriminate; auto; try (destruct t; discriminate); injection E as <-; cbn in I; intuition; subst; discriminate.
  - set (sched := List.concat (repeat [0;1;2] 90)).
    let p := eval vm_compute in (exec [] one_file "" sched [] (fresh three)) in match p with (?l, ?s) => exists l, s end.
    split; [exact (exec_runs [] one_file "" three sched [] (fresh three) (runs_start [] one_file "" three))|].
    split; [repeat constructor|]. split; [reflexivity|]. split; [repeat constructor|]. split; [reflexivity|]. split; [reflexivity|]. split; [discriminate|].
    intros [|[|[|[|t]]]]; reflexivity.
Qed.
