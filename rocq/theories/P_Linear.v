(** Proofs about goroutines that share a package manager: the order of calls, the end of executions, one loader. *)
From Coq Require Import List String Ascii Bool Arith Lia Relations Wellfounded.
From Verif Require Import BaseStr BaseMap M_Types M_Parse M_Packages M_Threads S_Packages S_Threads P_Parse P_Packages P_Threads.
Import ListNotations.
Local Open Scope string_scope.

Definition pending (m0 tm : manager) (pl : place) : Prop := match pl with
  | PAddWalk path cur steps _ => AddPackage m0 path = addSteps tm cur steps
  | PAddNew path cur step steps _ => AddPackage m0 path = addSteps tm cur (step :: steps) /\ edge tm cur step = None
  | PAddUnlock path q _ => AddPackage m0 path = (tm, q)
  | PFindWalk path cur steps _ => tm = m0 /\ findSteps m0 0 (split "/" path) = findSteps m0 cur steps
  | PFindUnlock path r _ => tm = m0 /\ r = Find m0 path
  | _ => False
  end.

(** *** What is left to do *)
Definition len (path : string) : nat := List.length (split "/" path).
Fixpoint imports_cost (l : list string) : nat := match l with [] => 0 | i :: l => 3 * len (trim quote i) + 7 + imports_cost l end.
Fixpoint append_cost (files : list (list string)) : nat := match files with [] => 2 | f :: fs => S (imports_cost f + S (append_cost fs)) end.
Definition file_cost (imports : list string) (files : list (list string)) : nat := imports_cost imports + S (append_cost files).
Fixpoint after (k : caller) : nat := match k with
  | CSelf _ => 10
  | COrAdd path k => 2 * len path + 3 + after k
  | CImport _ _ imports files => S (file_cost imports files)
  end.
Definition cost (pl : place) : nat := match pl with
  | PIdle => 0
  | PAddLock path k => 2 * len path + 2 + after k
  | PAddWalk _ _ steps k => 2 * List.length steps + 1 + after k
  | PAddNew _ _ _ steps k => 2 * List.length steps + 2 + after k
  | PAddUnlock _ _ k => after k
  | PFindLock path k => len path + 2 + after k
  | PFindWalk _ _ steps k => List.length steps + 1 + after k
  | PFindUnlock _ _ k => after k
  | PGetCheck _ => 6 | PGetCached _ _ => 5 | PGetStore _ _ _ => 4 | PGetSet _ _ => 3 | PGetRange _ => 2
  | PGetImports _ _ imports files => file_cost imports files
  | PGetAppend _ _ files => append_cost files
  | PGetReturn _ => 1
  end.
Definition stage (pl : place) : nat := match pl with
  | PIdle => 0
  | PGetCheck _ | PGetCached _ _ | PGetStore _ _ _ | PGetSet _ _ | PGetRange _ => 2
  | PAddLock _ k | PAddWalk _ _ _ k | PAddNew _ _ _ _ k | PAddUnlock _ _ k | PFindLock _ k | PFindWalk _ _ _ k | PFindUnlock _ _ k => if loads_for k then 1 else 2
  | PGetImports _ _ _ _ | PGetAppend _ _ _ | PGetReturn _ => 1
  end.
Definition weight (g : goroutine) : nat * (nat * nat) := (List.length (g_todo g), (stage (g_place g), cost (g_place g))).
Definition lighter : nat * (nat * nat) -> nat * (nat * nat) -> Prop := slexprod _ _ lt (slexprod _ _ lt lt).
Lemma lighter_wf : well_founded lighter.
Proof. repeat apply wf_slexprod; apply lt_wf. Qed.
Lemma lighter_stage a b c b' c' : b' < b -> lighter (a, (b', c')) (a, (b, c)).
Proof. intros H. apply right_slex, left_slex, H. Qed.
Lemma lighter_cost a b c c' : c' < c -> lighter (a, (b, c')) (a, (b, c)).
Proof. intros H. apply right_slex, right_slex, H. Qed.

Section Lists.
  Context {A : Type} (R : A -> A -> Prop) (WF : well_founded R).
  Definition one_less (l' l : list A) : Prop := exists t x y, nth_error l t = Some x /\ R y x /\ l' = set_nth t y l.
  Lemma one_less_wf : well_founded one_less.
  Proof.
    intros l. induction l as [|x l IH].
    - constructor. intros l' (t & x & y & E & _). destruct t; discriminate.
    - revert x. induction IH as [l _ IHl]. intros x. induction (WF x) as [x _ IHx]. constructor. intros l' (t & a & y & E & H & ->). destruct t as [|t]; cbn in *.
      + injection E as ->. now apply IHx.
      + apply IHl. exists t, a, y. auto.
  Qed.
End Lists.

Section Linear.
  Context (loaders : list (string -> option string)) (disk : string -> string -> option package) (workDir : string).
  Notation tick := (tick loaders disk workDir).
  Notation tstep := (tstep loaders disk workDir).
  Notation ok := (ok loaders disk workDir).
  Notation inv := (inv loaders disk workDir).

  (** ** The order of calls *)
  Lemma tick_quiet t g m mu c m' mu' c' g' h : holds (g_place g) = false -> tick t g m mu c = Some (m', mu', c', g', h) -> h = None.
  Proof.
    intros H E. unfold M_Threads.tick in E.
    destruct (g_place g) as [|path k|path cur steps k|path cur step steps k|path q k|path k|path cur steps k|path r k|p|p path|p path pkg|p pkg|p|p done imports files|p done files|p]; try discriminate H;
      repeat match type of E with context [match ?x with _ => _ end] => destruct x end; congruence.
  Qed.
  Lemma tick_lock t g m mu c m' mu' c' g' h : mu = None -> holds (g_place g) = false -> holds (g_place g') = true -> tick t g m mu c = Some (m', mu', c', g', h) ->
    pending (tree m) (tree m') (g_place g').
  Proof.
    intros -> H H' E. unfold M_Threads.tick in E.
    destruct (g_place g) as [|path k|path cur steps k|path cur step steps k|path q k|path k|path cur steps k|path r k|p|p path|p path pkg|p pkg|p|p done imports files|p done files|p]; try discriminate H.
    - destruct (g_todo g) as [|[]]; [discriminate| | |]; injection E as <- <- <- <- <-; discriminate H'.
    - injection E as <- <- <- <- <-. reflexivity.
    - injection E as <- <- <- <- <-. cbn. auto.
    - destruct (n_package (node m p)); [|destruct (Path _ m p); try discriminate]; injection E as <- <- <- <- <-; discriminate H'.
    - destruct (mlookup path c); [|destruct (disk workDir path)]; injection E as <- <- <- <- <-; discriminate H'.
    - injection E as <- <- <- <- <-; discriminate H'.
    - injection E as <- <- <- <- <-; discriminate H'.
    - destruct (n_package (node m p)) as [[|]|]; try discriminate; injection E as <- <- <- <- <-; discriminate H'.
    - destruct imports; injection E as <- <- <- <- <-; discriminate H'.
    - injection E as <- <- <- <- <-; destruct files; discriminate H'.
    - injection E as <- <- <- <- <-; discriminate H'.
  Qed.
  Lemma tick_pending t g m m0 mu c m' mu' c' g' h : pending m0 (tree m) (g_place g) -> tick t g m mu c = Some (m', mu', c', g', h) ->
    match h with
    | None => mu' = mu /\ pending m0 (tree m') (g_place g')
    | Some x => mu' = None /\ forall l u, one_by_one l m0 -> one_by_one (l ++ [(u, x)]) (tree m')
    end.
  Proof.
    intros P E. unfold M_Threads.tick in E.
    destruct (g_place g) as [|path k|path cur steps k|path cur step steps k|path q k|path k|path cur steps k|path r k|p|p path|p path pkg|p pkg|p|p done imports files|p done files|p]; try contradiction P; cbn in P.
    - destruct steps as [|step steps]; injection E as <- <- <- <- <-; split; auto; cbn in *.
      rewrite tree_edge in P. destruct (edge m cur step) eqn:Q; cbn; auto. rewrite tree_edge, Q. auto.
    - destruct P as (P & N). injection E as <- <- <- <- <-; split; auto; cbn. rewrite P, N, tree_new. f_equal. apply tree_size.
    - injection E as <- <- <- <- <-; split; auto. intros l u O. eapply one_add; eauto.
    - destruct P as (T & P). destruct steps as [|step steps]; injection E as <- <- <- <- <-; split; auto; cbn in *.
      + split; auto. unfold Find. now rewrite P.
      + rewrite <- T in P. rewrite tree_edge in P. destruct (edge m cur step) eqn:Q; cbn; split; auto; rewrite <- T; auto. unfold Find. now rewrite P.
    - destruct P as (T & ->). injection E as <- <- <- <- <-; split; auto. intros l u O. rewrite T. now constructor.
  Qed.

  Definition lin (l : list (nat * happening)) (s : process) : Prop := exists m0, one_by_one l m0 /\
    match p_mu s with
    | None => tree (p_mem s) = m0
    | Some t => forall g, nth_error (p_threads s) t = Some g -> pending m0 (tree (p_mem s)) (g_place g)
    end.
  Lemma runs_lin work l s : runs loaders disk workDir work l s -> lin l s.
  Proof.
    intros H. induction H as [|l s t s' h H (m0 & O & IH) E]; [exists NewPackageManager; split; [constructor|reflexivity]|].
    assert (I := runs_inv _ _ _ _ _ _ H). apply tstep_tick in E as (g & g' & m & mu & c & Eg & Et & ->).
    destruct (i_ok _ _ _ _ I _ _ Eg) as (Og & Gg).
    destruct (tick_ok _ _ _ _ _ _ _ _ _ _ _ _ _ (i_wf _ _ _ _ I) (i_packages _ _ _ _ I) (i_cache _ _ _ _ I) Og Gg Et) as (_ & _ & _ & _ & _ & _ & X).
    assert (Self : nth_error (set_nth t g' (p_threads s)) t = Some g') by (eapply nth_set_nth; eauto).
    destruct (holds (g_place g)) eqn:Hg.
    - assert (M := i_held _ _ _ _ I _ _ Eg Hg). rewrite M in IH. assert (Y := tick_pending _ _ _ _ _ _ _ _ _ _ _ (IH _ Eg) Et). destruct h as [x|].
      + destruct Y as (-> & Y). exists (tree m). split; [auto|reflexivity].
      + destruct Y as (-> & Y). rewrite List.app_nil_r. exists m0. split; auto. cbn. rewrite M. intros x Ex. rewrite Self in Ex. injection Ex as <-. exact Y.
    - assert (Z := tick_quiet _ _ _ _ _ _ _ _ _ _ Hg Et). subst h. rewrite List.app_nil_r. exists m0. split; auto. cbn [p_mu p_mem p_threads]. destruct X as (T & [(-> & _)|(M & -> & Hg')]).
      + destruct (p_mu s) as [u|] eqn:Mu; [|now rewrite T]. intros x Ex. rewrite T. apply IH. destruct (Nat.eq_dec t u) as [->|N]; [|now rewrite nth_set_other in Ex].
        exfalso. destruct (i_lock _ _ _ _ I u Mu) as (y & Ey & Hy). congruence.
      + rewrite M in *. subst m0. intros x Ex. rewrite Self in Ex. injection Ex as <-. now apply (tick_lock _ _ _ _ _ _ _ _ _ _ eq_refl Hg Hg' Et).
  Qed.

  (** ** What goroutines are given *)
  Lemma resume_got m g path k : forall adds r, serves adds (g_now g) path k -> caller_ok m k -> forall x, In x (g_got (resume k r g)) ->
    In x (g_got g) \/ asks (fst x) = path /\ snd x = r.
  Proof.
    induction k as [b|path' k IH|p done imports files]; intros adds r S C x Ix; cbn [resume] in Ix.
    - destruct S as (q & N & A & B & F). unfold give in Ix. rewrite N in Ix. cbn in Ix. apply in_app_iff in Ix as [Ix|[<-|[]]]; auto.
    - destruct S as (-> & -> & S). destruct r as [q|]; [now apply (IH true)|auto].
    - destruct r; auto.
  Qed.
  Lemma tick_got t g m mu c m' mu' c' g' h : ok m g -> tick t g m mu c = Some (m', mu', c', g', h) -> forall r q, In (r, q) (g_got g') ->
    In (r, q) (g_got g) \/ h = Some (HFind (asks r) q) \/ exists n, q = Some n /\ h = Some (HAdd (asks r) n).
  Proof.
    intros O E r q I. unfold M_Threads.tick in E. unfold P_Threads.ok in O.
    destruct (g_place g) as [|path k|path cur steps k|path cur step steps k|path q' k|path k|path cur steps k|path r' k|p|p path|p path pkg|p pkg|p|p done imports files|p done files|p];
      try (repeat match type of E with context [match ?x with _ => _ end] => destruct x end; try discriminate; injection E as <- <- <- <- <-; now left).
    - injection E as <- <- <- <- <-. destruct O as (S & C & _). destruct (resume_got m g path k true (Some q') S C _ I) as [X|(X & Y)]; cbn in *; subst; eauto.
    - injection E as <- <- <- <- <-. destruct O as (S & C & _). destruct (resume_got m g path k false r' S C _ I) as [X|(X & Y)]; cbn in *; subst; eauto.
  Qed.
  Lemma runs_got work l s : runs loaders disk workDir work l s -> forall t g r q, nth_error (p_threads s) t = Some g -> In (r, q) (g_got g) ->
    exists h, In (t, h) l /\ (h = HFind (asks r) q \/ exists n, q = Some n /\ h = HAdd (asks r) n).
  Proof.
    intros H. induction H as [|l s t s' h H IH E]; intros u x r q Ex Ir.
    - apply nth_error_In, in_map_iff in Ex as (y & <- & _). destruct Ir.
    - assert (I := runs_inv _ _ _ _ _ _ H). apply tstep_tick in E as (g & g' & m & mu & c & Eg & Et & ->). cbn [p_threads] in Ex.
      assert (D : In (r, q) (g_got x) -> nth_error (p_threads s) u = Some x -> exists h0, In (u, h0) (l ++ match h with Some x => [(t, x)] | None => [] end) /\ (h0 = HFind (asks r) q \/ exists n, q = Some n /\ h0 = HAdd (asks r) n)).
      { intros J K. destruct (IH _ _ _ _ K J) as (h0 & A & B). exists h0. rewrite in_app_iff. auto. }
      destruct (Nat.eq_dec t u) as [<-|N]; [|rewrite nth_set_other in Ex by auto; auto]. rewrite (nth_set_nth _ _ _ _ Eg) in Ex. injection Ex as <-.
      destruct (i_ok _ _ _ _ I _ _ Eg) as (Og & _). destruct (tick_got _ _ _ _ _ _ _ _ _ _ Og Et _ _ Ir) as [J|[J|(n & J & K)]].
      + destruct (IH _ _ _ _ Eg J) as (h0 & A & B). exists h0. rewrite in_app_iff. auto.
      + subst h. eexists. rewrite in_app_iff. split; [right; left; reflexivity|auto].
      + subst h. eexists. rewrite in_app_iff. split; [right; left; reflexivity|eauto].
  Qed.
  (** Every request is answered in its turn. *)
  Definition asked (g : goroutine) : list request := (map fst (g_got g) ++ match g_now g with Some r => [r] | None => [] end ++ g_todo g)%list.
  Lemma resume_asked k : forall r g, asked (resume k r g) = asked g.
  Proof.
    induction k as [b|path k IH|p done imports files]; intros r g; cbn [resume].
    - unfold asked, give, go. destruct (g_now g) as [q|] eqn:N; cbn; [rewrite map_app, <- app_assoc; reflexivity|now rewrite N].
    - destruct r; auto.
    - destruct r; auto.
  Qed.
  Lemma tick_asked t g m mu c m' mu' c' g' h : ok m g -> tick t g m mu c = Some (m', mu', c', g', h) -> asked g' = asked g.
  Proof.
    intros O E. unfold M_Threads.tick in E. unfold P_Threads.ok in O.
    destruct (g_place g) as [|path k|path cur steps k|path cur step steps k|path q' k|path k|path cur steps k|path r' k|p|p path|p path pkg|p pkg|p|p done imports files|p done files|p].
    - unfold asked. rewrite O. destruct (g_todo g) as [|r rest]; [discriminate|]. injection E as <- <- <- <- <-. reflexivity.
    - destruct mu; [discriminate|]. injection E as <- <- <- <- <-. reflexivity.
    - destruct steps; injection E as <- <- <- <- <-; reflexivity.
    - injection E as <- <- <- <- <-. reflexivity.
    - injection E as <- <- <- <- <-. apply resume_asked.
    - destruct mu; [discriminate|]. injection E as <- <- <- <- <-. reflexivity.
    - destruct steps; injection E as <- <- <- <- <-; reflexivity.
    - injection E as <- <- <- <- <-. apply resume_asked.
    - destruct (n_package (node m p)); [|destruct (Path _ m p); try discriminate]; injection E as <- <- <- <- <-; reflexivity.
    - destruct (mlookup path c); [|destruct (disk workDir path)]; injection E as <- <- <- <- <-; reflexivity.
    - injection E as <- <- <- <- <-; reflexivity.
    - injection E as <- <- <- <- <-; reflexivity.
    - destruct (n_package (node m p)) as [[|]|]; try discriminate; injection E as <- <- <- <- <-; reflexivity.
    - destruct imports; injection E as <- <- <- <- <-; reflexivity.
    - injection E as <- <- <- <- <-; reflexivity.
    - injection E as <- <- <- <- <-; reflexivity.
  Qed.
  Lemma map_set_same {A B} (f : A -> B) t x y l : nth_error l t = Some y -> f x = f y -> map f (set_nth t x l) = map f l.
  Proof. intros E H. rewrite map_set_nth, H. apply set_nth_same. now rewrite nth_error_map, E. Qed.
  Lemma step_asked s t s' h : inv s -> tstep t s = Some (s', h) -> map asked (p_threads s') = map asked (p_threads s).
  Proof.
    intros I E. apply tstep_tick in E as (g & g' & m & mu & c & Eg & Et & ->). cbn [p_threads]. apply (map_set_same asked t g' g); auto.
    eapply tick_asked; eauto. apply (i_ok _ _ _ _ I _ _ Eg).
  Qed.
  Lemma runs_asked work l s : runs loaders disk workDir work l s -> map asked (p_threads s) = work.
  Proof.
    intros H. induction H as [|l s t s' h H IH E].
    - cbn. rewrite map_map. rewrite <- (map_id work) at 2. apply map_ext. reflexivity.
    - rewrite <- IH. eapply step_asked; eauto. eapply runs_inv; eauto.
  Qed.

  (** ** Executions end *)
  Lemma resume_lighter k : forall r g, let g' := resume k r g in
    g_todo g' = g_todo g /\ (stage (g_place g') < (if loads_for k then 1 else 2) \/ stage (g_place g') = (if loads_for k then 1 else 2) /\ cost (g_place g') < after k).
  Proof.
    induction k as [b|path k IH|p done imports files]; intros r g; cbn [resume loads_for after].
    - unfold give, go. destruct (g_now g), b, r; cbn; split; auto; try lia.
    - destruct r as [q|]; [destruct (IH (Some q) g) as (A & B); split; auto; lia|]. cbn. split; auto. right. split; auto. lia.
    - destruct r; cbn; split; auto.
  Qed.
  Lemma tick_lighter t g m mu c m' mu' c' g' h : tick t g m mu c = Some (m', mu', c', g', h) -> lighter (weight g') (weight g).
  Proof.
    intros E. unfold M_Threads.tick in E. unfold weight.
    destruct (g_place g) as [|path k|path cur steps k|path cur step steps k|path q' k|path k|path cur steps k|path r' k|p|p path|p path pkg|p pkg|p|p done imports files|p done files|p] eqn:Ep.
    - destruct (g_todo g) as [|r rest]; [discriminate|]. injection E as <- <- <- <- <-. apply left_slex. cbn. lia.
    - destruct mu; [discriminate|]. injection E as <- <- <- <- <-. cbn. apply lighter_cost. unfold len. lia.
    - destruct steps; injection E as <- <- <- <- <-; cbn; [apply lighter_cost; lia|]. destruct (edge m cur s); cbn; apply lighter_cost; lia.
    - injection E as <- <- <- <- <-. cbn. apply lighter_cost. lia.
    - injection E as <- <- <- <- <-. destruct (resume_lighter k (Some q') g) as (A & [B|(B & C)]); cbv zeta in *; rewrite A; cbn [stage cost]; [now apply lighter_stage|rewrite B; now apply lighter_cost].
    - destruct mu; [discriminate|]. injection E as <- <- <- <- <-. cbn. apply lighter_cost. unfold len. lia.
    - destruct steps; injection E as <- <- <- <- <-; cbn; [apply lighter_cost; lia|]. destruct (edge m cur s); cbn; apply lighter_cost; lia.
    - injection E as <- <- <- <- <-. destruct (resume_lighter k r' g) as (A & [B|(B & C)]); cbv zeta in *; rewrite A; cbn [stage cost]; [now apply lighter_stage|rewrite B; now apply lighter_cost].
    - destruct (n_package (node m p)); [|destruct (Path _ m p); try discriminate]; injection E as <- <- <- <- <-; cbn; [apply lighter_stage|apply lighter_cost]; lia.
    - destruct (mlookup path c); [|destruct (disk workDir path)]; injection E as <- <- <- <- <-; cbn; [apply lighter_cost|apply lighter_cost|apply lighter_stage]; lia.
    - injection E as <- <- <- <- <-. cbn. apply lighter_cost; lia.
    - injection E as <- <- <- <- <-. cbn. apply lighter_cost; lia.
    - destruct (n_package (node m p)) as [[|]|]; try discriminate; injection E as <- <- <- <- <-; cbn; apply lighter_stage; lia.
    - destruct imports; injection E as <- <- <- <- <-; cbn; apply lighter_cost; unfold file_cost; cbn; lia.
    - injection E as <- <- <- <- <-. destruct files; cbn; apply lighter_cost; unfold file_cost; cbn; lia.
    - injection E as <- <- <- <- <-. cbn. apply lighter_stage; lia.
  Qed.
  Lemma all_end : well_founded (fun s' s => exists t h, tstep t s = Some (s', h)).
  Proof.
    apply (wf_incl _ _ (fun s' s => one_less lighter (map weight (p_threads s')) (map weight (p_threads s)))).
    - intros s' s (t & h & E). apply tstep_tick in E as (g & g' & m & mu & c & Eg & Et & ->). exists t, (weight g), (weight g'). cbn [p_threads].
      rewrite nth_error_map, Eg, map_set_nth. split; auto. split; auto. eapply tick_lighter; eauto.
    - apply (wf_inverse_image process (list (nat * (nat * nat))) (one_less lighter) (fun s => map weight (p_threads s))). apply one_less_wf, lighter_wf.
  Qed.
End Linear.
