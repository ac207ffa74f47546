(** What every moment of a run preserves in the file tree. *)
From Coq Require Import List String Ascii Bool ZArith Arith Lia.
From Verif Require Import BaseStr BaseMap M_Types M_Collect M_OpenAPI M_Parse M_Clean M_FS M_Service.
From Verif Require Import S_Service S_Cache S_Files P_FS P_Path P_Act P_Order.
Import ListNotations.
Local Open Scope string_scope.

(** ** Any property of trees *)

Section Moments.
  Context (cwd : list string) (SI : Service -> Prop) (Inv : tree content -> Prop).

  (** From a service and a tree with the properties, every tree of the action has its property, and the service
      afterwards. *)
  Definition moments (s : Service) (w : World) (s' : Service) (w' : World) : Prop :=
    w_cwd w = cwd -> SI s -> Inv (w_fs w) ->
    w_cwd w' = cwd /\ SI s' /\ Inv (w_fs w') /\ exists new, w_past w' = (new ++ w_past w)%list /\ Forall Inv new.

  Lemma moments_refl s w : moments s w s w.
  Proof. intros E S I. split; auto. split; auto. split; auto. exists []. split; [reflexivity|constructor]. Qed.
  Lemma moments_trans s w s1 w1 s2 w2 : moments s w s1 w1 -> moments s1 w1 s2 w2 -> moments s w s2 w2.
  Proof.
    intros H1 H2 E S I. destruct (H1 E S I) as (E1 & S1 & I1 & n1 & P1 & F1).
    destruct (H2 E1 S1 I1) as (E2 & S2 & I2 & n2 & P2 & F2). split; auto. split; auto. split; auto.
    exists (n2 ++ n1)%list. split; [now rewrite P2, P1, app_assoc|]. apply Forall_app. auto.
  Qed.
  Lemma moments_tick s w t : (w_cwd w = cwd -> Inv (w_fs w) -> Inv t) -> moments s w s (tick t w).
  Proof.
    intros H E S I. specialize (H E I). split; [exact E|]. split; [exact S|]. split; [exact H|]. exists [t].
    split; [reflexivity|]. constructor; auto.
  Qed.
  Lemma moments_service s w s' : (SI s -> SI s') -> moments s w s' w.
  Proof. intros H E S I. split; auto. split; auto. split; auto. exists []. split; [reflexivity|constructor]. Qed.
  Lemma moments_noted e s w s' w' : moments s (noted e w) s' w' -> moments s w s' w'.
  Proof. exact (fun H => H). Qed.

  Notation ok := (preserves moments).
  Lemma m_intro {A} (m : act A) s w : (w_cwd w = cwd -> SI s -> Inv (w_fs w) -> ok m s w) -> ok m s w.
  Proof. intros H E S I. exact (H E S I E S I). Qed.
  Lemma m_bind {A B} (m : act A) (f : A -> act B) s w :
    ok m s w -> (forall a s' w', m s w = (Ok a, s', w') -> ok (f a) s' w') -> ok (abind m f) s w.
  Proof. apply preserves_bind. exact moments_trans. Qed.
  Lemma m_ret {A} (a : A) s w : ok (aret a) s w.
  Proof. apply moments_refl. Qed.
  Lemma m_outcome {A} (o : outcome A) s w : ok (aoutcome o) s w.
  Proof. apply moments_refl. Qed.

  Lemma moments_names s w s' n : (SI s -> SI s') -> moments s w s' (w_set_names n w).
  Proof. intros H E S I. split; auto. split; auto. split; auto. exists []. split; [reflexivity|constructor]. Qed.
  Lemma m_modify f s w : (SI s -> SI (f s)) -> ok (modify f) s w.
  Proof. intros H. now apply moments_service. Qed.

  Context (env : Env).

  Lemma m_call_tree f p s w :
    (forall t', Inv (w_fs w) -> f (locate cwd p) (w_fs w) = Some t' -> Inv t') -> ok (call_tree env f p) s w.
  Proof.
    intros H. unfold preserves, call_tree, after_service, after_world.
    destruct (e_fault env (w_clock w)); cbn; [apply moments_tick; auto|].
    destruct (f (locate (w_cwd w) p) (w_fs w)) eqn:E; cbn; apply moments_tick; auto. intros C I. rewrite C in E. eauto.
  Qed.
  Lemma m_stat p s w : ok (os_Stat env p) s w.
  Proof.
    unfold preserves, os_Stat, after_service, after_world. destruct (e_fault env (w_clock w)); cbn; apply moments_tick; auto.
  Qed.
  Lemma m_readfile p s w : ok (os_ReadFile env p) s w.
  Proof.
    unfold preserves, os_ReadFile, after_service, after_world.
    destruct (e_fault env (w_clock w)); cbn; [apply moments_tick; auto|].
    destruct (get _ _) as [[]|]; cbn; apply moments_tick; auto.
  Qed.
  Lemma m_readdir p s w : ok (os_ReadDir env p) s w.
  Proof.
    unfold preserves, os_ReadDir, after_service, after_world.
    destruct (e_fault env (w_clock w)); cbn; [apply moments_tick; auto|].
    destruct (if String.eqb p "" then None else get _ _) as [[]|]; cbn; apply moments_tick; auto.
  Qed.
  Lemma m_getwd s w : ok (os_Getwd env) s w.
  Proof.
    unfold preserves, os_Getwd, after_service, after_world. destruct (e_fault env (w_clock w)); cbn; apply moments_tick; auto.
  Qed.
  Lemma m_removeall p s w :
    (locate cwd p = [] -> Inv (Dir [])) ->
    (locate cwd p <> [] -> forall t t', Inv t -> remove_all (locate cwd p) t = Some t' -> Inv t') ->
    ok (os_RemoveAll env p) s w.
  Proof.
    intros H0 H. unfold os_RemoveAll. destruct (String.eqb p ""); [apply m_ret|].
    destruct (String.eqb p "." || has_suffix "/." p); [apply m_outcome|].
    apply m_intro. intros C _ _. unfold preserves. rewrite C. destruct (locate cwd p) as [|k l] eqn:L.
    - unfold after_service, after_world. cbn [fst snd]. apply moments_tick. intros _ I.
      destruct (e_fault env (w_clock w)); auto.
    - apply m_call_tree. rewrite L. apply H. discriminate.
  Qed.
  Lemma m_rename p q s w :
    (forall t t', Inv t -> rename (locate cwd p) (locate cwd q) t = Some t' -> Inv t') -> ok (os_Rename env p q) s w.
  Proof. intros H. apply m_intro. intros C _ _. unfold os_Rename, preserves. rewrite C. apply m_call_tree. intros t' I X. eapply H; eauto. Qed.
  Lemma m_write p c s w :
    (forall g t t', g = c \/ (exists n, e_fault env n = Some g) -> Inv t -> write (locate cwd p) g t = Some t' -> Inv t') ->
    ok (file_Write env p c) s w.
  Proof.
    intros H. apply m_intro. intros C _ _. unfold preserves, file_Write, after_service, after_world. rewrite C.
    destruct (e_fault env (w_clock w)) eqn:F; cbn.
    - apply moments_tick. intros _ I. destruct (write _ _ _) eqn:W; eauto.
    - destruct (write _ _ _) eqn:W; cbn; apply moments_tick; eauto.
  Qed.

  Lemma run_steps_moments l s w es r s' w' :
    Forall (fun ea => forall s w, ok (snd ea) s w) l -> run_steps l s w es r s' w' -> moments s w s' w'.
  Proof.
    intros F H. induction H as [|e a l s w s1 w1 es r s2 w2 E H IH|e a l s w r s1 w1 E N].
    - apply moments_refl.
    - inversion F as [|? ? F1 F2]; subst. specialize (F1 s (noted e w)). unfold preserves, after_service, after_world in F1.
      cbn [snd] in F1. rewrite E in F1. eapply moments_trans; [apply (moments_noted e); exact F1|auto].
    - inversion F as [|? ? F1 F2]; subst. specialize (F1 s (noted e w)). unfold preserves, after_service, after_world in F1.
      cbn [snd] in F1. rewrite E in F1. apply (moments_noted e). exact F1.
  Qed.
End Moments.

Ltac mstep := match goal with
  | |- preserves _ (abind service _) _ _ => apply preserves_service; cbv beta zeta
  | |- preserves _ (abind _ _) _ _ => apply m_bind; [|intros ? ? ? ?]; cbv beta zeta
  | |- preserves _ (aret _) _ _ => apply m_ret
  | |- preserves _ (aoutcome _) _ _ => apply m_outcome
  | |- preserves _ (ignore _) _ _ => apply preserves_ignore
  | |- preserves _ (os_Stat _ _) _ _ => apply m_stat
  | |- preserves _ (os_ReadFile _ _) _ _ => apply m_readfile
  | |- preserves _ (os_ReadDir _ _) _ _ => apply m_readdir
  | |- preserves _ (os_Getwd _) _ _ => apply m_getwd
  | |- preserves _ (match ?x with _ => _ end) _ _ => destruct x
  | |- preserves _ (if ?x then _ else _) _ _ => destruct x
  end.

(** ** Names of files *)

Definition plain_tree (t : tree content) : Prop := forall q, kind_at q t <> None -> Forall plain_name q.

Lemma locate_plain cwd p : Forall plain_name cwd -> Forall plain_name (locate cwd p).
Proof.
  intros H. unfold locate. apply Forall_rev.
  set (acc := if is_rooted p then [] else rev cwd).
  assert (A : Forall plain_name acc) by (unfold acc; destruct (is_rooted p); [constructor|now apply Forall_rev]).
  assert (N := split_no_char "/" p). revert A. generalize acc. clear acc H.
  induction N as [|c l Nc N IH]; intros acc A; cbn [fold_left]; auto. apply IH. unfold push.
  destruct (String.eqb c "" || String.eqb c ".") eqn:E; auto.
  apply orb_false_iff in E as (E1 & E2). apply String.eqb_neq in E1, E2.
  destruct (String.eqb c "..") eqn:E3.
  - destruct acc as [|d acc]; [constructor|]. inversion A as [|? ? (_ & _ & D & _) A']; subst.
    apply String.eqb_neq in D. now rewrite D.
  - apply String.eqb_neq in E3. constructor; auto. repeat split; auto.
Qed.

(** A way to see that a given tree is plain. *)
Definition plainb (k : string) : bool :=
  negb (String.eqb k "") && negb (String.eqb k ".") && negb (String.eqb k "..") && negb (has_char "/" k).
Fixpoint plain_entries (t : tree content) : bool :=
  match t with
  | File _ => true
  | Dir es => forallb (fun kt => plainb (fst kt) && plain_entries (snd kt)) es
  end.
Lemma plainb_spec k : plainb k = true -> plain_name k.
Proof.
  unfold plainb. rewrite !andb_true_iff, !negb_true_iff, !String.eqb_neq. intros (((A & B) & C) & D). repeat split; auto.
Qed.
Lemma plain_entries_spec t : plain_entries t = true -> plain_tree t.
Proof.
  intros H q. revert t H. induction q as [|k q IH]; intros t H Q; [constructor|].
  unfold kind_at in Q. cbn [get] in Q. destruct t as [c|es]; [cbn in Q; congruence|].
  destruct (mlookup k es) as [u|] eqn:L; [|cbn in Q; congruence].
  cbn [plain_entries] in H. rewrite forallb_forall in H. apply mlookup_In in L. apply H in L. cbn in L.
  apply andb_true_iff in L as (A & B). constructor; [now apply plainb_spec|]. eapply IH; eauto.
Qed.

Lemma plain_prefix p q : is_prefix q p = true -> Forall plain_name p -> Forall plain_name q.
Proof. intros E H. apply is_prefix_spec in E as (r & ->). now apply Forall_app in H. Qed.


(** ** Only some places change *)

Section Frame.
  Context (cwd : list string) (SI : Service -> Prop) (T : list string -> Prop) (K : list string -> option (kind content)).

  Context (cwd_plain : Forall plain_name cwd).
  Definition unchanged (t : tree content) : Prop := plain_tree t /\ forall q, ~ T q -> kind_at q t = K q.
  Notation ok := (preserves (moments cwd SI unchanged)).
  Definition all_below (p : list string) : Prop := forall r, T (p ++ r).

  Lemma all_below_at p : all_below p -> T p.
  Proof. intros H. specialize (H []). now rewrite app_nil_r in H. Qed.
  Lemma all_below_prefix p q : all_below p -> is_prefix p q = true -> T q.
  Proof. intros H E. apply is_prefix_spec in E as (r & ->). apply H. Qed.
  Lemma all_below_app p r : all_below p -> all_below (p ++ r).
  Proof. intros H q. rewrite <- app_assoc. apply H. Qed.

  Lemma absent_below p q (t : tree content) :
    kind_at p t <> Some KDir -> is_prefix p q = true -> p <> q -> kind_at q t = None.
  Proof.
    intros N E D. apply is_prefix_spec in E as (r & ->). destruct r as [|k r]; [now rewrite app_nil_r in D|].
    destruct (kind_at p t) as [[c|]|] eqn:KP; try congruence.
    - eapply kind_file_below; eauto. discriminate.
    - now apply kind_none_below.
  Qed.

  Lemma u_create e p t t' : Forall plain_name p -> T p -> unchanged t -> create e p t = Some t' -> unchanged t'.
  Proof.
    intros PP HT (PT & U) C. apply create_spec in C as (D & S). split.
    - intros q. rewrite S. destruct (is_prefix p q) eqn:E; auto. destruct (is_prefix q p) eqn:E2; [|congruence].
      intros _. eapply plain_prefix; eauto.
    - intros q N. rewrite S, <- (U q N).
      destruct (is_prefix p q) eqn:E; auto. destruct (is_prefix q p) eqn:E2.
      + rewrite (is_prefix_antisym p q) in HT by auto. tauto.
      + symmetry. eapply absent_below; eauto. intros ->. now rewrite is_prefix_refl in E2.
  Qed.
  Lemma u_write c p t t' : T p -> unchanged t -> write p c t = Some t' -> unchanged t'.
  Proof.
    intros HT (PT & U) C. apply write_spec in C as ((c' & D) & S). split.
    - intros q. rewrite S. destruct (is_prefix p q) eqn:E; auto. destruct (is_prefix q p) eqn:E2; [|congruence].
      intros _. apply plain_prefix with (p := p); auto. apply PT. congruence.
    - intros q N. rewrite S, <- (U q N).
      destruct (is_prefix p q) eqn:E; auto. destruct (is_prefix q p) eqn:E2.
      + rewrite (is_prefix_antisym p q) in HT by auto. tauto.
      + symmetry. eapply absent_below; eauto; [congruence|]. intros ->. now rewrite is_prefix_refl in E2.
  Qed.
  Lemma u_mkdir p t t' : Forall plain_name p -> T p -> unchanged t -> mkdir p t = Some t' -> unchanged t'.
  Proof.
    intros PP HT (PT & U) C. apply mkdir_spec in C as (D & S). split.
    - intros q. rewrite S. destruct (is_prefix p q) eqn:E; auto. destruct (is_prefix q p) eqn:E2; [|congruence].
      intros _. eapply plain_prefix; eauto.
    - intros q N. rewrite S, <- (U q N).
      destruct (is_prefix p q) eqn:E; auto. destruct (is_prefix q p) eqn:E2.
      + rewrite (is_prefix_antisym p q) in HT by auto. tauto.
      + symmetry. eapply absent_below; eauto; [congruence|]. intros ->. now rewrite is_prefix_refl in E2.
  Qed.
  Lemma u_remove p t t' : all_below p -> p <> [] -> unchanged t -> remove_all p t = Some t' -> unchanged t'.
  Proof.
    intros HT NE (PT & U) C. split.
    - intros q. rewrite (remove_all_spec _ _ _ NE C). destruct (is_prefix p q); [congruence|auto].
    - intros q N. rewrite (remove_all_spec _ _ _ NE C), <- (U q N). destruct (is_prefix p q) eqn:E; auto.
      exfalso. apply N. eapply all_below_prefix; eauto.
  Qed.
  Lemma u_rename p q t t' : Forall plain_name q -> all_below p -> all_below q -> unchanged t -> rename p q t = Some t' -> unchanged t'.
  Proof.
    intros PQ HP HQ (PT & U) C. destruct (is_prefix p q) eqn:E.
    - unfold rename in C. destruct (get p t); [|discriminate]. rewrite E in C.
      destruct (is_prefix q p); [injection C as <-; now split|discriminate].
    - apply rename_spec in C as (_ & S); auto. split.
      + intros x. rewrite S. destruct (is_prefix p x); [congruence|]. destruct (is_prefix q x) eqn:E2; auto.
        intros X. apply PT in X. apply Forall_app in X as (_ & X). apply is_prefix_spec in E2 as (r & ->).
        rewrite after_prefix_app in X. apply Forall_app. auto.
      + intros x N. rewrite S, <- (U x N).
        destruct (is_prefix p x) eqn:E1; [exfalso; apply N; eapply (all_below_prefix p); eauto|].
        destruct (is_prefix q x) eqn:E2; [exfalso; apply N; eapply (all_below_prefix q); eauto|reflexivity].
  Qed.
  (** Making the directories on the way changes nothing if the last but one is there. *)
  Lemma u_mkdir_all p k t t' :
    Forall plain_name (p ++ [k]) -> T (p ++ [k]) -> kind_at p t = Some KDir ->
    unchanged t -> mkdir_all (p ++ [k]) t = Some t' -> unchanged t'.
  Proof.
    intros PP HT D (PT & U) C. split.
    - intros q. rewrite (mkdir_all_spec _ _ _ C). destruct (is_prefix q (p ++ [k])) eqn:E; auto.
      intros _. eapply plain_prefix; eauto.
    - intros q N. rewrite (mkdir_all_spec _ _ _ C), <- (U q N). destruct (is_prefix q (p ++ [k])) eqn:E; auto.
      apply is_prefix_spec in E as (r & E). destruct (split_last r) as [->|(r' & j & ->)].
      + rewrite app_nil_r in E. subst. tauto.
      + rewrite app_assoc in E. apply app_inj_tail in E as (E & _). symmetry. subst p.
        destruct r' as [|j' r']; [now rewrite app_nil_r in D|].
        eapply kind_below with (q := j' :: r'); [|discriminate]. now rewrite D.
  Qed.

  Context (env : Env).

  Lemma f_create p s w : T (locate cwd p) -> ok (os_Create env p) s w.
  Proof. intros H. apply m_call_tree. intros t' U C. exact (u_create _ _ _ _ (locate_plain cwd p cwd_plain) H U C). Qed.
  Lemma f_write p c s w : T (locate cwd p) -> ok (file_Write env p c) s w.
  Proof. intros H. apply m_write. intros g t t' _ U C. exact (u_write _ _ _ _ H U C). Qed.
  Lemma f_writefile p c s w : T (locate cwd p) -> ok (os_WriteFile env p c) s w.
  Proof. intros H. unfold os_WriteFile. mstep; [now apply f_create|now apply f_write]. Qed.
  Lemma f_mkdir p s w : T (locate cwd p) -> ok (os_Mkdir env p) s w.
  Proof. intros H. apply m_call_tree. intros t' U C. exact (u_mkdir _ _ _ (locate_plain cwd p cwd_plain) H U C). Qed.
  Lemma f_removeall p s w : all_below (locate cwd p) -> ok (os_RemoveAll env p) s w.
  Proof.
    intros H. apply m_removeall.
    - intros E. split.
      + intros [|k q]; [constructor|]. unfold kind_at. cbn. congruence.
      + intros q N. rewrite E in H. destruct (N (H q)).
    - intros NE t t' U C. exact (u_remove _ _ _ H NE U C).
  Qed.
  Lemma f_rename p q s w : all_below (locate cwd p) -> all_below (locate cwd q) -> ok (os_Rename env p q) s w.
  Proof. intros HP HQ. apply m_rename. intros t t' U C. exact (u_rename _ _ _ _ (locate_plain cwd q cwd_plain) HP HQ U C). Qed.

  Lemma f_cache s w : all_below (locate cwd (cachePath s)) -> ok (Cache env) s w.
  Proof.
    intros H. assert (H0 := all_below_at _ H). unfold Cache, ClearCache. mstep. mstep; [mstep|].
    mstep.
    { mstep; try mstep.
      match goal with E : os_Stat _ _ _ _ = (_, ?x, _) |- preserves _ _ ?x _ =>
        assert (x = s) as -> by (unfold os_Stat in E; destruct (e_fault env (w_clock w)); congruence) end.
      mstep; [mstep|]. mstep; try mstep. now apply f_removeall. }
    mstep; [now apply f_create|]. mstep; [destruct (is_yaml _); mstep|]. now apply f_write.
  Qed.

  (** *** The directory of astra *)
  Context (base : list string) (T_dir : T (base ++ [".astra"])) (T_git : T (base ++ [".astra"; ".gitignore"])).
  Context (T_main : all_below (base ++ [".astra"; "astramain"])).
  Context (SI_base : forall s, SI s -> locate cwd (sv_workDir s) = base).

  Lemma plain_astra : plain_name ".astra".
  Proof. repeat split; discriminate. Qed.
  Lemma astra_at s : locate cwd (sv_workDir s) = base -> locate cwd (getAstraDirPath s) = (base ++ [".astra"])%list.
  Proof. intros H. unfold getAstraDirPath. now rewrite locate_join_plain, H by exact plain_astra. Qed.
  Lemma in_astra s k : locate cwd (sv_workDir s) = base -> plain_name k -> locate cwd (path_Join [getAstraDirPath s; k]) = (base ++ [".astra"; k])%list.
  Proof. intros H P. rewrite locate_join_plain, astra_at by auto. now rewrite <- app_assoc. Qed.
  Lemma plain_main : plain_name mainPackageReplacement.
  Proof. repeat split; discriminate. Qed.

  Lemma f_copyMain d m l n s w :
    Forall plain_name l -> all_below (locate cwd m) -> ok (copyMain env d m l n) s w.
  Proof.
    intros F H. revert n s w; induction F as [|f l P F IH]; intros n s w; cbn [copyMain]; [mstep|].
    destruct (has_suffix ".go" f); [|destruct (has_suffix ".mod" f)].
    - mstep; [mstep|]. mstep; [|apply IH]. apply f_writefile. rewrite locate_join_plain by auto. apply H.
    - mstep; [mstep|]. apply IH.
    - apply IH.
  Qed.

  Lemma names_plain p t es : plain_tree t -> get p t = Some (Dir es) -> Forall plain_name (map fst es).
  Proof.
    intros PT G. apply Forall_forall. intros k I. apply (names_spec _ _ _ _ G) in I. apply PT in I.
    apply Forall_app in I as (_ & I). now inversion I.
  Qed.

  Lemma stat_same p s w st s' w' : os_Stat env p s w = (Ok st, s', w') -> s' = s /\ w' = tick (w_fs w) w.
  Proof. unfold os_Stat. destruct (e_fault env (w_clock w)); now injection 1. Qed.
  Lemma call_same f p s w r s' w' : call_tree env f p s w = (r, s', w') -> s' = s.
  Proof. unfold call_tree. destruct (e_fault env (w_clock w)); [now injection 1|]. destruct (f _ _); now injection 1. Qed.

  Context (SI_temp : forall s t, SI s -> SI (with_tempMain t s)).
  Lemma f_setupTempMain s w : SI s -> ok (setupTempMainPackage env) s w.
  Proof.
    intros S. assert (L := in_astra s _ (SI_base s S) plain_main). assert (B := T_main).
    unfold setupTempMainPackage. mstep. mstep; [mstep|].
    mstep; [mstep; try mstep; apply f_removeall; now rewrite L|].
    mstep; [apply f_mkdir; rewrite L; now apply all_below_at|].
    apply m_intro. intros _ _ (PT & _). mstep; [mstep|].
    mstep; [|apply m_modify; auto].
    apply f_copyMain; [|now rewrite L].
    match goal with E : os_ReadDir _ _ _ _ = _ |- _ => revert E end. unfold os_ReadDir.
    destruct (e_fault _ _); [discriminate|]. destruct (String.eqb _ _); [discriminate|].
    destruct (get _ _) as [[|es]|] eqn:G; try discriminate.
    intros [= <- _ _]. eapply names_plain; eauto.
  Qed.
  Lemma f_getMain s w : ok (GetMainPackageName env) s w.
  Proof.
    apply m_intro. intros _ S _. unfold GetMainPackageName. mstep. mstep; [|mstep; mstep].
    destruct (String.eqb _ _); [now apply f_setupTempMain|mstep].
  Qed.

  Context (SI_results : forall s r c, SI s -> SI (with_results r c s)).
  Lemma f_cleanTypes s w : ok (cleanTypes env) s w.
  Proof. unfold cleanTypes. mstep; [apply f_getMain|]. apply m_modify. auto. Qed.
  Lemma f_runCreate f s w : ok (runCreate env f) s w.
  Proof.
    destruct f as [|[l|]|a]; cbn [runCreate]; try mstep.
    revert s w; induction l as [|i l IH]; intros s w; cbn [ginCreateRoutes]; [mstep|].
    mstep. destruct (denied _ _); [apply IH|]. mstep; [mstep|]. mstep; [mstep|]. mstep; [apply m_modify; auto|apply IH].
  Qed.
  Lemma f_runParse f s w : ok (runParse env f) s w.
  Proof.
    destruct f as [| |a]; cbn [runParse]; try mstep.
    mstep; [destruct (e_usesMain _ _ _); [mstep; [apply f_getMain|mstep]|mstep]|].
    mstep. mstep; [mstep|]. mstep; [apply m_modify; auto|]. mstep.
  Qed.
  Lemma f_cleanUp s w :
    (SI s -> sv_cacheEnabled s = false -> sv_cliMode s = CLIModeNone -> all_below (base ++ [".astra"])) -> ok (cleanUp env) s w.
  Proof.
    intros TA. apply m_intro. intros _ S _. unfold cleanUp. mstep. mstep.
    destruct (negb _ && _) eqn:TE.
    - unfold cleanupAstraDir. mstep. apply f_removeall. rewrite astra_at by auto.
      apply andb_true_iff in TE as (T1 & T2). apply TA; auto; [now destruct (sv_cacheEnabled s)|].
      destruct (sv_cliMode s); congruence.
    - unfold cleanupTempMainPackage. mstep. mstep; [mstep|]. mstep; try mstep. apply f_removeall.
      now rewrite in_astra by auto using plain_main.
  Qed.

  Context (SI_doc : forall s m c, SI s -> SI (with_memo m (with_config c s))).
  Context (SI_outputs : forall s o, SI s -> SI (with_outputs o s)).

  Lemma under_below b x : Forall (fun c => c <> "..") (split "/" x) -> exists r, under b x = (b ++ r)%list.
  Proof.
    intros D. unfold under. assert (G : forall l acc, Forall (fun c => c <> "..") l -> exists r, fold_left (push true) l acc = (r ++ acc)%list).
    { clear. induction l as [|c l IH]; intros acc F; cbn [fold_left]; [now exists []|]. inversion F as [|? ? N F']; subst.
      destruct (IH (push true acc c) F') as (r & ->). unfold push. destruct (String.eqb c "" || String.eqb c "."); [now exists r|].
      apply String.eqb_neq in N. rewrite N. exists (r ++ [c])%list. now rewrite <- app_assoc. }
    destruct (G _ (rev b) D) as (r & ->). exists (rev r). now rewrite rev_app_distr, rev_involutive.
  Qed.

  Lemma split_keeps_no_char c d x : has_char c x = false -> Forall (fun y => has_char c y = false) (split d x).
  Proof.
    induction x as [|a x IH]; cbn [split has_char]; intros H; [repeat constructor|].
    apply orb_false_iff in H as (H1 & H2). specialize (IH H2). destruct (Ascii.eqb a d); [now constructor|].
    destruct (split d x) as [|h l]; cbn [hd tl] in *; [repeat constructor; cbn; now rewrite H1|].
    inversion IH; subst. constructor; auto. cbn. now rewrite H1.
  Qed.
  Lemma funcName_below b r : exists l, under b (funcName r) = (b ++ l)%list.
  Proof.
    apply under_below. assert (N : has_char "." (funcName r) = false).
    { unfold funcName. assert (F := split_no_char "." (rt_handler r)). rewrite Forall_forall in F. apply F.
      assert (NE := split_not_nil "." (rt_handler r)). destruct (exists_last NE) as (l & x & ->). rewrite last_last.
      apply in_app_iff. right. now left. }
    eapply Forall_impl; [|exact (split_keeps_no_char "." "/" _ N)]. intros y H ->. discriminate.
  Qed.

  Lemma f_azureFunctions d l s w : d <> "" -> all_below (locate cwd d) -> ok (azureFunctions env d l) s w.
  Proof.
    intros ND H. revert s w; induction l as [|r l IH]; intros s w; cbn [azureFunctions]; [mstep|].
    assert (L : locate cwd (path_Join [d; funcName r]) = under (locate cwd d) (funcName r)) by (apply locate_join; auto).
    destruct (funcName_below (locate cwd d) r) as (x & E). rewrite E in L.
    mstep; [apply f_mkdir; rewrite L; apply H|].
    mstep; [|apply IH]. apply f_writefile. rewrite locate_join_plain by (repeat split; discriminate).
    rewrite L, <- app_assoc. apply H.
  Qed.

  Lemma plain_azure : plain_name "azure".
  Proof. repeat split; discriminate. Qed.
  Lemma join_plain_nonempty a k : plain_name k -> path_Join [a; k] <> "".
  Proof.
    intros P. destruct (path_join_last a k P) as (b & ->). destruct (not_dot_suffix b k P) as (_ & _ & N).
    now apply String.eqb_neq.
  Qed.

  Lemma f_generateAzure d s w :
    SI s -> sv_workDir s <> "" -> all_below (base ++ [".astra"; "azure"]) -> all_below (under base d) -> ok (generateAzure env d) s w.
  Proof.
    intros S W BA B. assert (L := in_astra s _ (SI_base s S) plain_azure).
    assert (LD : locate cwd (path_Join [sv_workDir s; d]) = under base d) by (rewrite locate_join, (SI_base s S) by auto; auto).
    unfold generateAzure, SetupTempOutputDir, MoveTempOutputDir.
    mstep.
    { mstep. mstep; [apply f_mkdir; rewrite L; now apply all_below_at|mstep]. }
    assert (s' = s /\ a = path_Join [getAstraDirPath s; "azure"]) as (-> & ->).
    { match goal with E : abind _ _ _ _ = _ |- _ => revert E end. unfold abind at 1, service.
      intros E. apply bind_ok in E as (u & s1 & w1 & E1 & E2). apply call_same in E1. subst.
      unfold aret in E2. now injection E2. }
    mstep. mstep; [apply f_azureFunctions; [apply join_plain_nonempty, plain_azure|now rewrite L]|].
    assert (s' = s) as ->.
    { match goal with E : azureFunctions _ ?d ?l ?x ?y = _ |- _ =>
        assert (P := p_azureFunctions (fun s _ s' _ => s' = s) (fun _ _ => eq_refl)
                       (fun _ _ _ _ _ _ a b => eq_trans b a) (fun _ _ _ => eq_refl) env d l x y);
        unfold preserves in P; rewrite E in P; exact P end. }
    mstep. mstep; [mstep|]. mstep; [mstep; try mstep; apply f_removeall; now rewrite LD|].
    apply f_rename; [now rewrite L|now rewrite LD].
  Qed.

  Definition places_touched (o : Output) : Prop := forall q, output_place base o q -> T q.

  Lemma place_under b x : place b x = under b x.
  Proof.
    unfold place, locate, under. change (is_rooted ("./" ++ x)) with false. cbv iota.
    change ("./" ++ x) with ("." ++ String "/" x). rewrite split_sep. reflexivity.
  Qed.
  Lemma jsonPath_spec x : jsonPath x = with_extension [".json"] x.
  Proof. unfold jsonPath, with_extension. cbn [existsb]. rewrite orb_false_r. now destruct (has_suffix ".json" x). Qed.
  Lemma openapiPath_spec x : openapiPath x = with_extension [".json"; ".yaml"; ".yml"] x.
  Proof.
    unfold openapiPath, with_extension. cbn [existsb]. rewrite orb_false_r.
    now destruct (has_suffix ".json" x), (has_suffix ".yaml" x), (has_suffix ".yml" x).
  Qed.

  Lemma f_runGenerate n o s w :
    (SI s -> sv_workDir s <> "") -> (is_azure o -> all_below (base ++ [".astra"; "azure"])) -> places_touched o -> ok (runGenerate env n o) s w.
  Proof.
    intros W0 BA B. apply m_intro. intros _ S _. assert (W := W0 S). unfold places_touched, output_place in B.
    unfold runGenerate. destruct (out_generate o) as [|x|x|d|a] eqn:GE; try mstep.
    - unfold generateOpenAPI. mstep. mstep; [apply moments_refl|]. mstep; [apply moments_names; intros X; apply SI_doc; exact X|].
      mstep; [apply m_modify; auto|]. apply f_writefile. apply B.
      rewrite locate_join, (SI_base s S), openapiPath_spec by auto. symmetry. apply place_under.
    - unfold generateJSON. mstep. mstep; [apply m_modify; auto|]. apply f_writefile. apply B.
      rewrite locate_join, (SI_base s S), jsonPath_spec by auto. symmetry. apply place_under.
    - apply f_generateAzure; auto; [apply BA; now exists d|]. intros r. apply B. exists r. f_equal.
  Qed.

  Lemma f_setupAstraDir s w :
    locate cwd (sv_workDir s) = base -> kind_at base (w_fs w) = Some KDir -> ok (setupAstraDir env) s w.
  Proof.
    intros E D. assert (P : plain_name ".gitignore") by (repeat split; discriminate).
    unfold setupAstraDir, setupGitIgnore. mstep. mstep.
    - apply m_call_tree. rewrite astra_at by auto. intros t' U C.
      refine (u_mkdir_all _ _ _ _ _ _ D U C).
      + rewrite <- (astra_at s E). now apply locate_plain.
      + exact T_dir.
    - match goal with X : os_MkdirAll _ _ _ _ = (_, ?x, _) |- _ => apply call_same in X; subst x end.
      mstep. mstep; [mstep|].
      assert (HT : T (locate cwd (path_Join [getAstraDirPath s; ".gitignore"]))) by (now rewrite in_astra by auto).
      mstep; try mstep; try now apply f_create. all: now apply f_write.
  Qed.

  Lemma f_cacheIfEnabled_steps s0 :
    (sv_cacheEnabled s0 = true -> forall s, SI s -> all_below (locate cwd (cachePath s))) ->
    Forall (fun ea => forall s w, ok (snd ea) s w) (caching env s0).
  Proof.
    intros H. unfold caching. destruct (sv_cacheEnabled s0); [|constructor]. constructor; [|constructor].
    intros s w. apply m_intro. intros _ S _. apply f_cache. auto.
  Qed.
End Frame.

(** ** A run *)

Section Run.
  Context (env : Env) (s0 : Service) (w0 : World) (sane0 : sane w0).
  Let cwd := w_cwd w0.
  Let base := work_dir s0 w0.
  Let T := run_place s0 w0.
  Let K := fun q => kind_at q (w_fs w0).
  Definition same_dirs (s : Service) : Prop :=
    locate cwd (sv_workDir s) = base /\ sv_cachePath s = sv_cachePath s0 /\
    sv_cacheEnabled s = sv_cacheEnabled s0 /\ sv_cliMode s = sv_cliMode s0.
  Definition has_dir (s : Service) : Prop := same_dirs s /\ sv_workDir s <> "".

  Lemma astra_dir : T (base ++ [".astra"]).
  Proof. left. now left. Qed.
  Lemma astra_git : T (base ++ [".astra"; ".gitignore"]).
  Proof. left. right. left. now rewrite <- app_assoc. Qed.
  Lemma astra_main : all_below T (base ++ [".astra"; "astramain"]).
  Proof. intros r. left. right. right. left. exists r. now rewrite <- !app_assoc. Qed.
  Lemma cache_same s : same_dirs s -> locate cwd (cachePath s) = cache_place s0 w0.
  Proof.
    intros (A & B & _). unfold cachePath, cache_place. rewrite B. destruct (String.eqb (sv_cachePath s0) ""); auto.
    cbn [negb]. assert (P : plain_name "cache.json") by (repeat split; discriminate).
    rewrite locate_join_plain by auto. change (path_Join [path_Join [sv_workDir s0; ".astra"]; "cache.json"]) with (path_Join [getAstraDirPath s0; "cache.json"]).
    rewrite (locate_join_plain (w_cwd w0)) by auto. f_equal. unfold getAstraDirPath.
    rewrite !locate_join_plain by exact plain_astra. f_equal. exact A.
  Qed.
  Lemma cache_below : sv_cacheEnabled s0 = true -> forall s, same_dirs s -> all_below T (locate cwd (cachePath s)).
  Proof. intros E s S r. right. left. split; auto. exists r. now rewrite cache_same. Qed.

  Lemma run_setup s w :
    s = s0 -> w_cwd w = cwd -> w_fs w = w_fs w0 -> kind_at base (w_fs w0) = Some KDir ->
    preserves (moments cwd same_dirs (unchanged T K)) (setupDirs env) s w.
  Proof.
    intros -> E F D. destruct sane0 as (CP & PT).
    assert (B : locate cwd (sv_workDir s0) = base) by reflexivity.
    unfold setupDirs. mstep.
    - apply (f_setupAstraDir _ _ _ _ CP _ base astra_dir astra_git); auto. now rewrite F.
    - mstep. destruct (String.eqb _ _) eqn:WD; [|mstep]. apply String.eqb_eq in WD.
      apply m_intro. intros C (S & _) _. rewrite WD, locate_empty in S. mstep; [mstep|].
      apply m_modify. intros (_ & S'). split; [|exact S']. unfold with_workDir. cbn [sv_workDir].
      match goal with E : os_Getwd _ _ _ = _ |- _ => revert E end. unfold os_Getwd.
      destruct (e_fault _ _); [discriminate|]. intros X. match type of X with (Ok ?d, _, _) = (Ok ?a, _, _) => assert (a = d) as -> by congruence end.
      rewrite locate_cwd, C; auto. now rewrite C.
  Qed.
  Lemma setup_has_dir s w s' w' : setupDirs env s w = (Ok tt, s', w') -> sv_workDir s' <> "".
  Proof.
    unfold setupDirs. intros E. apply bind_ok in E as (u & s1 & w1 & _ & E). unfold abind at 1, service in E.
    destruct (String.eqb (sv_workDir s1) "") eqn:WD.
    - apply bind_ok in E as (d & s2 & w2 & E & E2). unfold modify in E2. injection E2 as <- <-. cbn.
      revert E. unfold os_Getwd. destruct (e_fault _ _); [discriminate|]. intros [= <- _ _]. discriminate.
    - unfold aret in E. injection E as <- <-. now apply String.eqb_neq.
  Qed.

  Notation ok := (preserves (moments cwd has_dir (unchanged T K))).
  Lemma hd_base s : has_dir s -> locate cwd (sv_workDir s) = base.
  Proof. intros ((A & _) & _). exact A. Qed.

  Lemma caching_ok : Forall (fun ea => forall s w, ok (snd ea) s w) (caching env s0).
  Proof.
    destruct sane0 as (CP & _). apply f_cacheIfEnabled_steps; auto. intros E s (S & _). now apply cache_below.
  Qed.
  Lemma create_ok f s w : ok (runCreate env f) s w.
  Proof. apply f_runCreate. auto. Qed.
  Lemma parse_ok f s w : ok (runParse env f) s w.
  Proof. destruct sane0 as (CP & _). apply (f_runParse _ _ _ _ CP env base astra_main hd_base); auto. Qed.
  Lemma clean_ok s w : ok (cleanTypes env) s w.
  Proof. destruct sane0 as (CP & _). apply (f_cleanTypes _ _ _ _ CP env base astra_main hd_base); auto. Qed.
  Lemma cleanUp_frame s w : ok (cleanUp env) s w.
  Proof.
    destruct sane0 as (CP & _). apply (f_cleanUp _ _ _ _ env base astra_main hd_base); auto.
    intros ((_ & _ & A & B) & _) C D r. left. right. right. right. right. split; [split; congruence|now exists r].
  Qed.
  Lemma generate_ok n o s w : In o (sv_outputs s0) -> ok (runGenerate env n o) s w.
  Proof.
    intros I. destruct sane0 as (CP & _).
    apply (f_runGenerate _ _ _ _ CP env base hd_base); auto.
    - intros (_ & W). exact W.
    - intros A r. left. right. right. right. left. split; [now exists o|]. exists r. now rewrite <- !app_assoc.
    - intros q Q. right. right. exists o. auto.
  Qed.

  Lemma Forall_map_in {A B} (P : B -> Prop) (f : A -> B) l : (forall a, In a l -> P (f a)) -> Forall P (map f l).
  Proof. intros H. apply Forall_forall. intros b I. apply in_map_iff in I as (a & <- & I). auto. Qed.
  Lemma numbered_in {A} n (l : list A) x : In x (numbered n l) -> In (snd x) l.
  Proof. intros I. rewrite <- (numbered_snd n l). now apply in_map. Qed.

  Lemma later_ok :
    Forall (fun ea => forall s w, ok (snd ea) s w) (tl (setup_steps env s0) ++ complete_steps env s0).
  Proof.
    assert (C := caching_ok). assert (N : forall s w, ok (aret tt) s w) by (intros; mstep).
    unfold setup_steps, complete_steps. cbn [tl].
    repeat match goal with
           | |- Forall _ (_ ++ _) => apply Forall_app; split
           | |- Forall _ (_ :: _) => constructor
           | |- Forall _ [] => constructor
           | _ => assumption
           end.
    - apply Forall_map_in. intros i _ s w. apply create_ok.
    - apply Forall_map_in. intros i _ s w. apply parse_ok.
    - intros s w. apply clean_ok.
    - apply Forall_map_in. intros i I s w. apply generate_ok. eapply numbered_in; eauto.
    - intros s w. apply cleanUp_frame.
  Qed.

  Lemma parse_frame r s' w' :
    kind_at base (w_fs w0) = Some KDir -> Parse env s0 w0 = (r, s', w') ->
    unchanged T K (w_fs w') /\ exists new, w_past w' = (new ++ w_past w0)%list /\ Forall (unchanged T K) new.
  Proof.
    intros D E.
    assert (U0 : unchanged T K (w_fs w0)) by (destruct sane0; split; auto).
    assert (Z : sv_inputs s0 = [] \/ sv_outputs s0 = [] \/ (sv_inputs s0 <> [] /\ sv_outputs s0 <> [])).
    { destruct (sv_inputs s0); auto. destruct (sv_outputs s0); auto. right. right. split; discriminate. }
    destruct Z as [Z|[Z|(A & B)]].
    1,2: assert (X : exists e, Parse env s0 w0 = (Err e, s0, w0))
      by (unfold Parse, SetupParse; unfold abind at 1 2; unfold checkIO, abind, service;
          destruct (sv_inputs s0); [eexists; reflexivity|]; destruct (sv_outputs s0); [eexists; reflexivity|discriminate]);
      destruct X as (e & X); rewrite X in E; injection E as <- <- <-; split; [exact U0|exists []; auto].
    destruct (parse_run_is env s0 w0 A B) as (es & r2 & s2 & w2 & E2 & H).
    rewrite E in E2. injection E2 as <- <- <-.
    assert (LO := later_ok). change (setup_steps env s0) with ((EvSetup, setupDirs env) :: tl (setup_steps env s0)) in H.
    cbn [app] in H. inversion H as [|e a l ? ? s1 w1 es1 ? ? ? E1 H1|e a l ? ? ? ? ? E1 N1]; subst.
    - assert (R := run_setup s0 (noted EvSetup w0) eq_refl eq_refl eq_refl D).
      unfold preserves, after_service, after_world in R. rewrite E1 in R. cbn [fst snd] in R.
      destruct (R eq_refl) as (C1 & S1 & U1 & n1 & P1 & F1); [repeat split; reflexivity|exact U0|].
      assert (R2 := run_steps_moments cwd has_dir (unchanged T K) _ _ _ _ _ _ _ LO H1).
      destruct (R2 C1) as (C2 & S2 & U2 & n2 & P2 & F2); [split; [exact S1|eapply setup_has_dir; eauto]|exact U1|].
      split; [exact U2|]. exists (n2 ++ n1)%list. split; [rewrite P2, P1; now rewrite <- app_assoc|]. apply Forall_app. auto.
    - assert (R := run_setup s0 (noted EvSetup w0) eq_refl eq_refl eq_refl D).
      unfold preserves, after_service, after_world in R. rewrite E1 in R. cbn [fst snd] in R.
      destruct (R eq_refl) as (C1 & S1 & U1 & n1 & P1 & F1); [repeat split; reflexivity|exact U0|].
      split; [exact U1|]. exists n1. auto.
  Qed.
End Run.

(** ** One output *)

Lemma generate_frame env n o s w r s' w' :
  sane w -> sv_workDir s <> "" -> runGenerate env n o s w = (r, s', w') ->
  let base := work_dir s w in
  let T := fun q => output_place base o q \/ (is_azure o /\ inside (base ++ [".astra"; "azure"]) q) in
  unchanged T (fun q => kind_at q (w_fs w)) (w_fs w') /\
  exists new, w_past w' = (new ++ w_past w)%list /\ Forall (unchanged T (fun q => kind_at q (w_fs w))) new.
Proof.
  intros (CP & PT) W E base T.
  set (SI := fun x => sv_workDir x = sv_workDir s).
  assert (B : forall x, SI x -> locate (w_cwd w) (sv_workDir x) = base) by (intros x ->; reflexivity).
  assert (F : preserves (moments (w_cwd w) SI (unchanged T (fun q => kind_at q (w_fs w)))) (runGenerate env n o) s w).
  { apply (f_runGenerate _ _ _ _ CP env base B); auto.
    - intros A r'. right. split; auto. now exists r'.
    - intros q Q. now left. }
  unfold preserves, after_service, after_world in F. rewrite E in F.
  destruct (F eq_refl eq_refl) as (_ & _ & U & X); [split; auto|]. auto.
Qed.

(** ** Completing *)

Lemma complete_frame env s w r s' w' :
  sane w -> sv_workDir s <> "" -> CompleteParse env s w = (r, s', w') ->
  let T := run_place s w in
  unchanged T (fun q => kind_at q (w_fs w)) (w_fs w') /\
  exists new, w_past w' = (new ++ w_past w)%list /\ Forall (unchanged T (fun q => kind_at q (w_fs w))) new.
Proof.
  intros SA W E T.
  assert (U0 : unchanged T (fun q => kind_at q (w_fs w)) (w_fs w)) by (destruct SA; split; auto).
  assert (Z : sv_inputs s = [] \/ sv_outputs s = [] \/ (sv_inputs s <> [] /\ sv_outputs s <> [])).
  { destruct (sv_inputs s); auto. destruct (sv_outputs s); auto. right. right. split; discriminate. }
  destruct Z as [Z|[Z|(A & B)]].
  1,2: assert (X : exists e, CompleteParse env s w = (Err e, s, w))
    by (unfold CompleteParse; unfold abind at 1; unfold checkIO, abind, service;
        destruct (sv_inputs s); [eexists; reflexivity|]; destruct (sv_outputs s); [eexists; reflexivity|discriminate]);
    destruct X as (e & X); rewrite X in E; injection E as <- <- <-; split; [exact U0|exists []; auto].
  destruct (completeParse_is env s s w (outputs_kept_refl s) A B) as (es & r2 & s2 & w2 & E2 & H).
  rewrite E in E2. injection E2 as <- <- <-.
  assert (LO := later_ok env s w SA). apply Forall_app in LO as (_ & LO).
  assert (R2 := run_steps_moments _ _ _ _ _ _ _ _ _ _ LO H).
  destruct (R2 eq_refl) as (C2 & S2 & U2 & X); [split; [repeat split|exact W]|exact U0|]. auto.
Qed.

(** ** Cleaning up *)

Lemma run_steps_last l e a s w es s' w' :
  run_steps (l ++ [(e, a)]) s w es (Ok tt) s' w' ->
  exists es1 s1 w1, run_steps l s w es1 (Ok tt) s1 w1 /\ a s1 (noted e w1) = (Ok tt, s', w').
Proof.
  revert s w es. induction l as [|(e0, a0) l IH]; intros s w es H; cbn [app] in H.
  - inversion H as [|? ? ? ? ? s1 w1 es1 ? ? ? E1 H1|]; subst; [|congruence]. inversion H1; subst.
    exists [], s, w. split; [constructor|exact E1].
  - inversion H as [|? ? ? ? ? s1 w1 es1 ? ? ? E1 H1|]; subst; [|congruence].
    apply IH in H1 as (es2 & s2 & w2 & H2 & E2). exists (e0 :: es2), s2, w2. split; [eapply rs_ok; eauto|exact E2].
Qed.

Lemma path_join_removable a k : plain_name k ->
  let p := path_Join [a; k] in String.eqb p "" = false /\ (String.eqb p "." || has_suffix "/." p) = false.
Proof.
  intros P p. destruct (path_join_last a k P) as (b & E). destruct (not_dot_suffix b k P) as (X & Y & Z).
  unfold p. rewrite E. split; [exact Z|]. now rewrite X, Y.
Qed.

(** Without faults, nothing is left where RemoveAll was called. *)
Lemma removeall_gone env a k s w r s' w' :
  (forall n, e_fault env n = None) -> plain_name k ->
  os_RemoveAll env (path_Join [a; k]) s w = (r, s', w') ->
  forall q, kind_at (locate (w_cwd w) a ++ k :: q) (w_fs w') = None.
Proof.
  intros NF P E q. destruct (path_join_removable a k P) as (X & Y). unfold os_RemoveAll in E. rewrite X, Y in E.
  assert (L := locate_join_plain (w_cwd w) a k P).
  change (k :: q) with ([k] ++ q)%list. rewrite app_assoc, <- L. unfold call_tree in E. rewrite NF in E.
  destruct (locate (w_cwd w) (path_Join [a; k])) as [|j l] eqn:LL.
  { destruct (locate (w_cwd w) a); discriminate. }
  destruct (remove_all (j :: l) (w_fs w)) as [t|] eqn:R.
  - injection E as _ _ <-. cbn [w_fs tick]. assert (NE : j :: l <> []) by discriminate. rewrite (remove_all_spec _ _ _ NE R).
    now rewrite is_prefix_app.
  - injection E as _ _ <-. cbn [w_fs tick]. unfold remove_all in R.
    destruct (through_file (j :: l) (w_fs w)) eqn:TF.
    + apply through_file_spec in TF as (q1 & q2 & c & EQ & N & KF). rewrite EQ, <- app_assoc.
      eapply kind_file_below; eauto. destruct q2; [congruence|discriminate].
    + destruct (get (j :: l) (w_fs w)) eqn:G; [|discriminate]. exfalso.
      destruct (split_last (j :: l)) as [|(l' & m & EL)]; [discriminate|]. rewrite EL in *.
      destruct (put_some l' m None (w_fs w)) as (t' & PT); [|congruence].
      eapply kind_below with (q := [m]); [|discriminate]. unfold kind_at. rewrite G. destruct t as [c|es]; cbn; discriminate.
Qed.

Lemma complete_last env s : exists l, complete_steps env s = (l ++ [(EvTeardown, cleanUp env)])%list.
Proof.
  unfold complete_steps.
  match goal with |- exists l, (?a :: ?m1 ++ ?c ++ ?b :: ?c2 ++ ?g :: ?m2 ++ ?c3 ++ [?t])%list = _ =>
    exists (a :: m1 ++ c ++ b :: c2 ++ g :: m2 ++ c3)%list end.
  repeat (rewrite <- ?app_assoc; cbn [app]). reflexivity.
Qed.

(** What the last step does. *)
Lemma cleanUp_gone env s w s' w' :
  (forall n, e_fault env n = None) -> cleanUp env s w = (Ok tt, s', w') ->
  let base := locate (w_cwd w) (sv_workDir s) in
  (temporary s -> forall q, kind_at (base ++ ".astra" :: q) (w_fs w') = None) /\
  (forall q, kind_at (base ++ ".astra" :: "astramain" :: q) (w_fs w') = None).
Proof.
  intros NF E base. unfold cleanUp in E. unfold abind at 1, service in E. unfold ignore in E.
  destruct (negb (sv_cacheEnabled s) && match sv_cliMode s with CLIModeNone => true | _ => false end) eqn:TE.
  - unfold cleanupAstraDir in E. unfold abind, service in E.
    destruct (os_RemoveAll env (getAstraDirPath s) s w) as [[r s1] w1] eqn:R.
    assert (w' = w1) as -> by (destruct r; congruence).
    assert (G := removeall_gone env _ _ _ _ _ _ _ NF plain_astra R). split; [auto|]. intros q. apply G.
  - split.
    { intros (X & Y). rewrite X, Y in TE. discriminate. }
    intros q. unfold cleanupTempMainPackage in E. unfold abind, service in E. unfold os_Stat in E. rewrite NF in E.
    assert (L := in_astra (w_cwd w) base s _ eq_refl plain_main).
    change (".astra" :: "astramain" :: q) with ([".astra"; mainPackageReplacement] ++ q)%list. rewrite app_assoc.
    rewrite <- L. destruct (get _ (w_fs w)) eqn:G.
    + match type of E with context [os_RemoveAll env ?p s ?x] =>
        destruct (os_RemoveAll env p s x) as [[r s1] w1] eqn:R end.
      assert (w' = w1) as -> by (destruct r; congruence).
      assert (X := removeall_gone env _ _ _ _ _ _ _ NF plain_main R q). cbn [w_cwd tick] in X.
      rewrite locate_join_plain by exact plain_main. rewrite <- app_assoc. exact X.
    + match type of E with context [if ?b then SError else SAbsent] => destruct b end;
        cbn in E; injection E as _ <-; cbn [w_fs tick]; apply kind_none_below; unfold kind_at; now rewrite G.
Qed.

(** How a run ends: the directory of astra, or only the temporary package in it, is gone. *)
Lemma parse_cleaned env s w s' w' :
  sane w -> kind_at (work_dir s w) (w_fs w) = Some KDir -> (forall n, e_fault env n = None) ->
  Parse env s w = (Ok tt, s', w') ->
  (temporary s -> forall q, kind_at (work_dir s w ++ ".astra" :: q) (w_fs w') = None) /\
  (forall q, kind_at (work_dir s w ++ ".astra" :: "astramain" :: q) (w_fs w') = None).
Proof.
  intros SA D NF E.
  assert (Z : sv_inputs s <> [] /\ sv_outputs s <> []).
  { revert E. unfold Parse, SetupParse. unfold abind at 1 2. unfold checkIO. unfold abind at 1, service.
    destruct (sv_inputs s); [discriminate|]. destruct (sv_outputs s); [discriminate|]. split; discriminate. }
  destruct Z as (A & B). destruct (parse_run_is env s w A B) as (es & r2 & s2 & w2 & E2 & H).
  rewrite E in E2. injection E2 as <- <- <-.
  assert (LO := later_ok env s w SA). destruct (complete_last env s) as (l & EL). rewrite EL in H, LO.
  change (setup_steps env s) with ((EvSetup, setupDirs env) :: tl (setup_steps env s)) in H.
  rewrite app_assoc in H, LO. apply run_steps_last in H as (es1 & s1 & w1 & H & C).
  apply Forall_app in LO as (LO & _). cbn [app] in H.
  assert (U0 : unchanged (run_place s w) (fun q => kind_at q (w_fs w)) (w_fs w)) by (destruct SA; split; auto).
  inversion H as [|e a l2 ? ? s2 w2 es2 ? ? ? E1 H1|]; subst; [|congruence].
  assert (R := run_setup env s w SA s (noted EvSetup w) eq_refl eq_refl eq_refl D).
  unfold preserves, after_service, after_world in R. rewrite E1 in R. cbn [fst snd] in R.
  destruct (R eq_refl) as (C1 & S1 & U1 & n1 & P1 & F1); [repeat split; reflexivity|exact U0|].
  assert (R2 := run_steps_moments _ _ _ _ _ _ _ _ _ _ LO H1).
  destruct (R2 C1) as (C2 & ((S2 & _ & S3 & S4) & _) & U2 & _); [split; [exact S1|eapply setup_has_dir; eauto]|exact U1|].
  destruct (cleanUp_gone env s1 (noted EvTeardown w1) s' w' NF C) as (G1 & G2). cbn [w_cwd noted] in G1, G2.
  rewrite C2, S2 in G1, G2. split; [|exact G2]. intros (T1 & T2). apply G1. split; congruence.
Qed.

Lemma came_up_frame (T : list string -> Prop) K w w' :
  unchanged T K (w_fs w') /\ (exists new, w_past w' = (new ++ w_past w)%list /\ Forall (unchanged T K) new) ->
  forall t, came_up w w' t -> forall q, ~ T q -> kind_at q t = K q.
Proof.
  intros ((_ & U) & new & P & F) t [->|(new' & P' & I)] q N; [auto|].
  rewrite P in P'. apply app_inv_tail in P' as <-. rewrite Forall_forall in F. destruct (F t I) as (_ & X). auto.
Qed.

Lemma writefile_dir env q p c s w r s' w' :
  os_WriteFile env p c s w = (r, s', w') -> kind_at q (w_fs w) = Some KDir -> kind_at q (w_fs w') = Some KDir.
Proof.
  intros E K. unfold os_WriteFile, abind, os_Create, call_tree in E.
  assert (WR : forall (t : tree content) g t', kind_at q t = Some KDir -> write (locate (w_cwd w) p) g t = Some t' -> kind_at q t' = Some KDir).
  { intros t g t' KT WT. apply write_spec in WT as ((c' & X) & S). rewrite S.
    destruct (is_prefix _ q) eqn:P; auto. destruct (is_prefix q _) eqn:P2.
    - rewrite (is_prefix_antisym _ _ P P2) in X. congruence.
    - assert (NE : locate (w_cwd w) p <> q) by (intros Y; rewrite Y, is_prefix_refl in P2; discriminate).
      assert (Z : kind_at q t = None) by (apply (absent_below (locate (w_cwd w) p)); auto; congruence). congruence. }
  destruct (e_fault env (w_clock w)) eqn:F1; [now injection E as _ _ <-|].
  destruct (create _ _ _) as [t|] eqn:C; [|now injection E as _ _ <-].
  assert (KT : kind_at q t = Some KDir).
  { apply create_spec in C as (X & S). rewrite S. destruct (is_prefix _ q) eqn:P; auto. destruct (is_prefix q _) eqn:P2.
    - rewrite (is_prefix_antisym _ _ P P2) in X. congruence.
    - assert (NE : locate (w_cwd w) p <> q) by (intros Y; rewrite Y, is_prefix_refl in P2; discriminate).
      assert (Z : kind_at q (w_fs w) = None) by (apply (absent_below (locate (w_cwd w) p)); auto). congruence. }
  unfold file_Write in E. cbn [w_clock tick w_cwd w_fs] in E.
  destruct (e_fault env (S (w_clock w))) eqn:F2.
  - injection E as _ _ <-. cbn [w_fs tick]. destruct (write _ _ t) eqn:WT; eauto.
  - destruct (write _ _ t) eqn:WT; injection E as _ _ <-; cbn [w_fs tick]; eauto.
Qed.
