(** Proofs about goroutines that share a package manager, one of which loads packages. *)
From Coq Require Import List String Ascii Bool Arith Lia.
From Verif Require Import BaseStr BaseMap M_Types M_Parse M_Packages M_Threads S_Packages S_Threads P_Parse P_Packages P_Threads P_Linear.
Import ListNotations.
Local Open Scope string_scope.

Definition found (m : manager) (i : string) (q : nat) : Prop := findSteps m 0 (split "/" (trim quote i)) = Some q.
(** Some files of a package are recorded, and of the next one some imports are found. *)
Definition partly (m : manager) (p : nat) (done : list nat) (todo : list string) (files : list (list string)) : Prop :=
  exists pkg pre di, n_package (node m p) = Some pkg /\ pkg = (pre ++ (di ++ todo) :: files)%list /\ imports_found m pre (n_files (node m p)) /\ Forall2 (found m) di done.
Fixpoint middle_caller (m : manager) (path : string) (k : caller) : Prop := match k with
  | CSelf _ => True
  | COrAdd _ k => middle_caller m path k
  | CImport p done imports files => exists i, trim quote i = path /\ partly m p done (i :: imports) files
  end.
Definition middle (m : manager) (pl : place) : Prop := match pl with
  | PAddLock path k | PAddWalk path _ _ k | PAddNew path _ _ _ k | PAddUnlock path _ k | PFindLock path k | PFindWalk path _ _ k | PFindUnlock path _ k => middle_caller m path k
  | PGetCached p _ | PGetStore p _ _ | PGetSet p _ => n_package (node m p) = None
  | PGetRange p => n_files (node m p) = []
  | PGetImports p done imports files => partly m p done imports files
  | PGetAppend p done files => partly m p done [] files
  | _ => True
  end.
Fixpoint caller_node (k : caller) : option nat := match k with CSelf _ => None | COrAdd _ k => caller_node k | CImport p _ _ _ => Some p end.
Definition node_at (pl : place) : option nat := match pl with
  | PAddLock _ k | PAddWalk _ _ _ k | PAddNew _ _ _ _ k | PAddUnlock _ _ k | PFindLock _ k | PFindWalk _ _ _ k | PFindUnlock _ _ k => caller_node k
  | PGetRange p | PGetImports p _ _ _ | PGetAppend p _ _ => Some p
  | _ => None
  end.
Definition complete (m : manager) (pl : place) : Prop := forall p, p < nodes m ->
  match n_package (node m p) with
  | None => n_files (node m p) = []
  | Some pkg => node_at pl = Some p \/ imports_found m pkg (n_files (node m p))
  end.

(** Nothing is loaded in a step. *)
Definition unloaded (m m' : manager) : Prop :=
  (forall p, p < nodes m -> n_package (node m' p) = n_package (node m p) /\ n_files (node m' p) = n_files (node m p)) /\
  (forall p, nodes m <= p -> n_package (node m' p) = None /\ n_files (node m' p) = []).
Lemma unloaded_refl m : unloaded m m.
Proof. split; auto. intros p L. rewrite node_over by auto. auto. Qed.
Lemma unloaded_new m p s : wf m -> p < nodes m -> edge m p s = None -> unloaded m (newEdge m p s).
Proof.
  intros W L N. split.
  - intros q Q. destruct (ne_old m p s q Q) as (_ & _ & -> & -> & _). auto.
  - intros q Q. destruct (Nat.eq_dec q (nodes m)) as [->|Nq]; [rewrite ne_new by auto; auto|]. rewrite node_over; auto. rewrite ne_size by auto. lia.
Qed.
Lemma partly_grows m m' p done todo files : wf m -> grows m m' -> p < nodes m -> unloaded m m' -> partly m p done todo files -> partly m' p done todo files.
Proof.
  intros W G L (U & _) (pkg & pre & di & A & B & C & D). destruct (U p L) as (U1 & U2). exists pkg, pre, di. rewrite U1, U2. repeat split; auto.
  - now apply (imports_grow m).
  - clear - W G D. induction D; constructor; auto. now apply (grows_found m).
Qed.
Lemma complete_grows m m' pl : wf m -> grows m m' -> unloaded m m' -> complete m pl -> complete m' pl.
Proof.
  intros W G U C p Lp. destruct (Nat.lt_ge_cases p (nodes m)) as [L|L]; [|destruct (proj2 U p L) as (-> & ->); auto].
  destruct (proj1 U p L) as (-> & ->). specialize (C p L). destruct (n_package (node m p)); auto. destruct C as [C|C]; auto. right. now apply (imports_grow m).
Qed.
Lemma caller_middle_grows m m' path k : wf m -> grows m m' -> unloaded m m' -> caller_ok m k -> middle_caller m path k -> middle_caller m' path k.
Proof.
  intros W G U. induction k as [b|x k IH|p done imports files]; cbn; auto. intros L (i & E & P). exists i. split; auto. now apply (partly_grows m).
Qed.

(** Nodes say the path they are found under. *)
Lemma path_is m path q fuel : wf m -> findSteps m 0 (split "/" path) = Some q -> no_final_slash path -> q < fuel -> Path fuel m q = Ok path.
Proof.
  intros W F NS LT. destruct (split_last_list (split "/" path)) as [E|(l & s & E)]; [now apply split_not_nil in E|].
  assert (J := join_split "/" path). rewrite E in F, J. change (str1 "/") with "/" in J. destruct (String.eqb s "") eqn:S.
  - apply String.eqb_eq in S; subst s. destruct (split_last_list l) as [->|(l' & s' & ->)].
    + cbn in J. subst path. assert (Q := F). cbn [app] in Q.
      destruct fuel as [|[|fuel]]; [lia| |].
      * apply found_node in Q as (_ & Q); auto. assert (q = 0) by lia. now apply Q in H.
      * rewrite (Path_empty m [] q 0 (S fuel) W F eq_refl). unfold Path. cbn. now rewrite (proj2 (wf_root m W)).
    + exfalso. apply (NS (join "/" (l' ++ [s']))). rewrite <- J. clear.
      induction l' as [|b [|c l'] IH]; [reflexivity|cbn; now rewrite ?append_assoc|].
      cbn [app] in *. rewrite !join_cons, IH. now rewrite !append_assoc.
  - apply String.eqb_neq in S. rewrite (Path_spec m l s q fuel W F LT S). now rewrite J.
Qed.

Section Loader.
  Context (loaders : list (string -> option string)) (disk : string -> string -> option package) (workDir : string).
  Notation tick := (tick loaders disk workDir).
  Notation tstep := (tstep loaders disk workDir).
  Notation ok := (ok loaders disk workDir).
  Notation inv := (inv loaders disk workDir).

  Lemma middle_grows m m' g : wf m -> grows m m' -> unloaded m m' -> ok m g -> middle m (g_place g) -> middle m' (g_place g).
  Proof.
    intros W G U O. unfold P_Threads.ok in O.
    destruct (g_place g) as [|path k|path cur steps k|path cur step steps k|path q k|path k|path cur steps k|path r k|p|p path|p path pkg|p pkg|p|p done imports files|p done files|p]; cbn; auto;
      try (apply caller_middle_grows; auto; tauto).
    - destruct (proj1 U p) as (-> & _); tauto.
    - destruct (proj1 U p) as (-> & _); tauto.
    - destruct (proj1 U p) as (-> & _); tauto.
    - destruct (proj1 U p) as (_ & ->); tauto.
    - apply partly_grows; tauto.
    - apply partly_grows; tauto.
  Qed.

  (** Goroutines that do not load. *)
  Definition quiet (g : goroutine) : Prop :=
    loading (g_place g) = false /\ (forall r, In r (g_todo g) -> gets r = false) /\ (forall r, g_now g = Some r -> gets r = false).
  Lemma resume_quiet k : forall r g adds path, serves adds (g_now g) path k -> loads_for k = false -> (forall r, In r (g_todo g) -> gets r = false) -> (forall r, g_now g = Some r -> gets r = false) ->
    quiet (resume k r g).
  Proof.
    induction k as [b|x k IH|p done imports files]; intros r g adds path S L T N; cbn [resume].
    - destruct S as (q & E & _ & B & _). assert (b = false) by (rewrite <- B; auto). subst b. unfold give. rewrite H, E. split; [reflexivity|]. split; [exact T|discriminate].
    - destruct S as (-> & -> & S). destruct r; [now apply (IH _ _ true path)|]. split; [exact L|]. split; auto.
    - discriminate L.
  Qed.
  Lemma tick_silent t g m mu c m' mu' c' g' h : wf m -> ok m g -> quiet g -> tick t g m mu c = Some (m', mu', c', g', h) -> unloaded m m' /\ c' = c /\ quiet g'.
  Proof.
    intros W O (Q & T & N) E. assert (R := unloaded_refl m). unfold M_Threads.tick in E. unfold P_Threads.ok in O.
    destruct (g_place g) as [|path k|path cur steps k|path cur step steps k|path q k|path k|path cur steps k|path r k|p|p path|p path pkg|p pkg|p|p done imports files|p done files|p]; try discriminate Q; cbn in Q.
    - destruct (g_todo g) as [|r rest] eqn:Et; [discriminate|]. injection E as <- <- <- <- <-. split; auto. split; auto. split; [destruct r; reflexivity|]. split.
      + intros r' I. apply T. now right.
      + intros r' E. injection E as <-. apply T. now left.
    - destruct mu; [discriminate|]. injection E as <- <- <- <- <-. split; [exact R|]. split; [reflexivity|]. split; [exact Q|]. split; auto.
    - destruct steps; injection E as <- <- <- <- <-; (split; [exact R|]); (split; [reflexivity|]); (split; [|split; auto]); cbn; try (destruct (edge m cur s)); exact Q.
    - injection E as <- <- <- <- <-. destruct O as (S & C & (lp & El & F) & Nn). split; [apply unloaded_new; auto; eapply found_node; eauto|]. split; [reflexivity|]. split; [exact Q|]. split; auto.
    - injection E as <- <- <- <- <-. split; auto. split; auto. destruct O as (S & _). eapply resume_quiet; eauto.
    - destruct mu; [discriminate|]. injection E as <- <- <- <- <-. split; [exact R|]. split; [reflexivity|]. split; [exact Q|]. split; auto.
    - destruct steps; injection E as <- <- <- <- <-; (split; [exact R|]); (split; [reflexivity|]); (split; [|split; auto]); cbn; try (destruct (edge m cur s)); exact Q.
    - injection E as <- <- <- <- <-. split; auto. split; auto. destruct O as (S & _). eapply resume_quiet; eauto.
  Qed.

  (** The goroutine that loads. *)
  Lemma imports_snoc m pre fs f done : imports_found m pre fs -> Forall2 (found m) f done -> imports_found m (pre ++ [f]) (fs ++ [done]).
  Proof. intros A B. apply Forall2_app; auto. Qed.
  Lemma resume_node k : forall r g adds path, serves adds (g_now g) path k -> (adds = true -> r <> None) -> node_at (g_place (resume k r g)) = caller_node k.
  Proof.
    induction k as [b|x k IH|p done imports files]; intros r g adds path S A; cbn [resume].
    - destruct b, r; reflexivity.
    - destruct S as (_ & -> & S). destruct r; [apply (IH _ _ true path); auto; discriminate|]. reflexivity.
    - destruct S as (_ & ->). destruct r; [reflexivity|]. now contradiction A.
  Qed.
  Lemma resume_middle m k : forall r g adds path, serves adds (g_now g) path k -> (adds = true -> r <> None) ->
    match r with Some q => findSteps m 0 (split "/" path) = Some q | None => True end ->
    middle_caller m path k -> middle m (g_place (resume k r g)).
  Proof.
    induction k as [b|x k IH|p done imports files]; intros r g adds path S A F M; cbn [resume].
    - destruct b, r; exact I.
    - destruct S as (_ & -> & S). destruct r; [apply (IH _ _ true path); auto; discriminate|]. exact M.
    - destruct S as (_ & ->). destruct r as [q|]; [|now contradiction A]. cbn in *. destruct M as (i & E & (pkg & pre & di & B & C & D & X)).
      exists pkg, pre, (di ++ [i])%list. rewrite <- app_assoc. repeat split; auto. apply Forall2_app; auto. constructor; [|constructor]. unfold found. rewrite <- E in F. exact F.
  Qed.
  Lemma complete_at m pl pl' : node_at pl = node_at pl' -> complete m pl -> complete m pl'.
  Proof. intros E C p L. specialize (C p L). now rewrite <- E. Qed.
  Lemma tick_loads t g m mu c m' mu' c' g' h : wf m -> ok m g -> tick t g m mu c = Some (m', mu', c', g', h) ->
    middle m (g_place g) -> complete m (g_place g) -> middle m' (g_place g') /\ complete m' (g_place g').
  Proof.
    intros W O E M C. unfold M_Threads.tick in E. unfold P_Threads.ok in O.
    destruct (g_place g) as [|path k|path cur steps k|path cur step steps k|path q k|path k|path cur steps k|path r k|p|p path|p path pkg|p pkg|p|p done imports files|p done files|p] eqn:Ep; cbn [middle] in M.
    - destruct (g_todo g) as [|r rest] eqn:Et; [discriminate|]. injection E as <- <- <- <- <-. destruct r; split; try exact I; now apply (complete_at m PIdle).
    - destruct mu; [discriminate|]. injection E as <- <- <- <- <-. split; [exact M|]. eapply complete_at; [|exact C]. reflexivity.
    - destruct steps; injection E as <- <- <- <- <-; [|destruct (edge m cur s)]; split; try exact M; eapply complete_at; try exact C; reflexivity.
    - injection E as <- <- <- <- <-. destruct O as (S & Cl & (lp & El & F) & Nn). assert (L : cur < nodes m) by (eapply found_node; eauto).
      assert (U := unloaded_new m cur step W L Nn). assert (G := ne_grows m cur step L). split.
      + cbn. now apply (caller_middle_grows m).
      + apply (complete_grows m); auto.
    - injection E as <- <- <- <- <-. destruct O as (S & Cl & F). split; [apply (resume_middle m k (Some q) g true path); auto; discriminate|].
      eapply complete_at; [|exact C]. cbn. symmetry. apply (resume_node k (Some q) g true path); auto. discriminate.
    - destruct mu; [discriminate|]. injection E as <- <- <- <- <-. split; [exact M|]. eapply complete_at; [|exact C]. reflexivity.
    - destruct steps; injection E as <- <- <- <- <-; [|destruct (edge m cur s)]; split; try exact M; eapply complete_at; try exact C; reflexivity.
    - injection E as <- <- <- <- <-. destruct O as (S & Cl & F). split; [apply (resume_middle m k r g false path); auto; [discriminate|destruct r; auto]|].
      eapply complete_at; [|exact C]. cbn. symmetry. apply (resume_node k r g false path); auto. discriminate.
    - destruct (n_package (node m p)) eqn:Pk; [|destruct (Path _ m p); try discriminate]; injection E as <- <- <- <- <-; split; try exact I; try exact Pk; eapply complete_at; try exact C; reflexivity.
    - destruct (mlookup path c); [|destruct (disk workDir path)]; injection E as <- <- <- <- <-; split; try exact I; try exact M; eapply complete_at; try exact C; reflexivity.
    - injection E as <- <- <- <- <-. split; try exact M; eapply complete_at; try exact C; reflexivity.
    - injection E as <- <- <- <- <-. destruct O as (N & L & Ct).
      destruct (set_shape m p (Some pkg) (n_files (node m p)) W L) as (W' & F & Z & Nd & Ot & Pk & Fi). set (m' := set_nth p _ m) in *.
      assert (X := C p L). rewrite M in X. split; [cbn; congruence|]. intros q Lq. destruct (Nat.eq_dec q p) as [->|Nq]; [rewrite Pk; now left|].
      rewrite (Ot q Nq). specialize (C q). rewrite Z in Lq. specialize (C Lq). destruct (n_package (node m q)); auto. destruct C as [C|C]; [discriminate C|].
      right. unfold imports_found in *. clear - C F. induction C as [|f fl fs l H _ IH]; constructor; auto. induction H; constructor; auto. now rewrite F.
    - destruct (n_package (node m p)) as [[|imports files]|] eqn:Pk; try discriminate; injection E as <- <- <- <- <-; split; try exact I.
      + intros q Lq. specialize (C q Lq). destruct (n_package (node m q)) eqn:Pq; auto. destruct C as [C|C]; auto. injection C as <-. rewrite Pk in Pq. injection Pq as <-. right. rewrite M. constructor.
      + exists (imports :: files), [], []. rewrite M. repeat split; auto; constructor.
      + eapply complete_at; try exact C; reflexivity.
    - destruct imports as [|i imports]; injection E as <- <- <- <- <-; split.
      + exact M.
      + eapply complete_at; try exact C; reflexivity.
      + cbn. exists i. auto.
      + eapply complete_at; try exact C; reflexivity.
    - injection E as <- <- <- <- <-. destruct O as (N & L).
      destruct (set_shape m p (n_package (node m p)) (n_files (node m p) ++ [done])%list W L) as (W' & F & Z & Nd & Ot & Pk & Fi). set (m' := set_nth p _ m) in *.
      assert (IF : forall x y, imports_found m x y -> imports_found m' x y).
      { intros x y H. unfold imports_found in *. clear - H F. induction H as [|f fl fs l H _ IH]; constructor; auto. induction H; constructor; auto. now rewrite F. }
      destruct M as (pkg & pre & di & A & B & D & X). rewrite List.app_nil_r in B. assert (Y := imports_snoc _ _ _ _ _ D X). rewrite A in Pk.
      destruct files as [|imports files]; split; try exact I.
      + intros q Lq. destruct (Nat.eq_dec q p) as [->|Nq]; [rewrite Pk, Fi; right; subst pkg; auto|].
        rewrite (Ot q Nq). specialize (C q). rewrite Z in Lq. specialize (C Lq). destruct (n_package (node m q)); auto. destruct C as [C|C]; [cbn in C; congruence|]. auto.
      + cbn. exists pkg, (pre ++ [di])%list, []. rewrite Fi. split; [auto|]. split; [rewrite <- app_assoc; exact B|]. split; [now apply IF|constructor].
      + intros q Lq. destruct (Nat.eq_dec q p) as [->|Nq]; [rewrite Pk; now left|].
        rewrite (Ot q Nq). specialize (C q). rewrite Z in Lq. specialize (C Lq). destruct (n_package (node m q)); auto. destruct C as [C|C]; [cbn in C; congruence|]. auto.
    - injection E as <- <- <- <- <-. split; [exact I|]. eapply complete_at; try exact C; reflexivity.
  Qed.

  Record loader_inv (t : nat) (s : process) : Prop := {
    li_others : forall t' g, nth_error (p_threads s) t' = Some g -> t' <> t -> quiet g;
    li_middle : forall g, nth_error (p_threads s) t = Some g -> middle (p_mem s) (g_place g) /\ complete (p_mem s) (g_place g);
    li_none : nth_error (p_threads s) t = None -> complete (p_mem s) PIdle }.
  Lemma runs_loader work t : (forall t' l r, nth_error work t' = Some l -> In r l -> gets r = true -> t' = t) ->
    forall l s, runs loaders disk workDir work l s -> loader_inv t s.
  Proof.
    intros OL l s H. induction H as [|l s u s' h H IH E].
    - assert (T : forall t' g, nth_error (p_threads (fresh work)) t' = Some g -> exists l, nth_error work t' = Some l /\ g = mkG PIdle None l []).
      { intros t' g E. cbn in E. rewrite nth_error_map in E. destruct (nth_error work t') as [l|]; [|discriminate]. injection E as <-. eauto. }
      assert (C : complete NewPackageManager PIdle). { intros p L. destruct p as [|p]; [reflexivity|]. exfalso. unfold nodes in L. cbn in L. lia. }
      split.
      + intros t' g E N. apply T in E as (l & E & ->). split; [reflexivity|]. split; [|discriminate]. intros r Ir. destruct (gets r) eqn:G; auto. contradiction N. eapply OL; eauto.
      + intros g E. apply T in E as (l & E & ->). split; [exact I|exact C].
      + intros _. exact C.
    - assert (I := runs_inv _ _ _ _ _ _ H). destruct IH as [LO LM LN]. destruct (inv_step _ _ _ _ _ _ _ I E) as (I' & G).
      apply tstep_tick in E as (g & g' & m & mu & c & Eg & Et & ->). destruct (i_ok _ _ _ _ I _ _ Eg) as (Og & _). cbn [p_mem] in G.
      assert (W := i_wf _ _ _ _ I).
      destruct (Nat.eq_dec u t) as [->|N].
      + destruct (LM _ Eg) as (M & C). destruct (tick_loads _ _ _ _ _ _ _ _ _ _ W Og Et M C) as (M' & C'). split; cbn [p_threads p_mem].
        * intros t' x Ex N. rewrite nth_set_other in Ex by auto. eapply LO; eauto.
        * intros x Ex. rewrite (nth_set_nth _ _ _ _ Eg) in Ex. injection Ex as <-. auto.
        * intros Ex. rewrite (nth_set_nth _ _ _ _ Eg) in Ex. discriminate.
      + destruct (tick_silent _ _ _ _ _ _ _ _ _ _ W Og (LO _ _ Eg N) Et) as (U & _ & Q). split; cbn [p_threads p_mem].
        * intros t' x Ex N'. destruct (Nat.eq_dec u t') as [<-|N2]; [rewrite (nth_set_nth _ _ _ _ Eg) in Ex; injection Ex as <-; auto|]. rewrite nth_set_other in Ex by auto. eapply LO; eauto.
        * intros x Ex. rewrite nth_set_other in Ex by auto. destruct (LM _ Ex) as (M & C). destruct (i_ok _ _ _ _ I _ _ Ex) as (Ox & _). split.
          -- apply (middle_grows (p_mem s)); auto.
          -- apply (complete_grows (p_mem s)); auto.
        * intros Ex. rewrite nth_set_other in Ex by auto. apply (complete_grows (p_mem s)); auto.
  Qed.

  Lemma loads_location pl x w : access pl = Some (x, w) -> loading pl = false -> (forall p, x <> LEdges p) -> False.
  Proof. destruct pl; cbn; intros A L N; try discriminate; try (destruct steps; try discriminate); injection A as <- <-; now eapply N. Qed.
  Lemma loader_no_race work l s x : one_loader work -> runs loaders disk workDir work l s -> ~ race s x.
  Proof.
    intros (t & OL) H (a & b & g & g' & w & w' & N & Ea & Eb & Aa & Ab & Wr). assert (I := runs_inv _ _ _ _ _ _ H). destruct (runs_loader work t OL l s H) as [LO _ _].
    assert (X : (exists p, x = LEdges p) \/ forall p, x <> LEdges p) by (destruct x; eauto; right; discriminate).
    destruct X as [(p & ->)|X]; [apply (no_race_edges loaders disk workDir s p I); exists a, b, g, g', w, w'; repeat split; assumption|].
    assert (L : forall u y v, nth_error (p_threads s) u = Some y -> access (g_place y) = Some (x, v) -> u = t).
    { intros u y v Ey Ay. destruct (Nat.eq_dec u t) as [|Nu]; auto. destruct (LO _ _ Ey Nu) as (Q & _). exfalso. eapply loads_location; eauto. }
    apply N. rewrite (L _ _ _ Ea Aa). symmetry. eapply L; eauto.
  Qed.
End Loader.
