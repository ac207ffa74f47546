(** What a run without Azure output keeps at every moment: everything outside the directory of astra but its
    documents, which are files or nothing, and the directory itself. *)
From Coq Require Import List String Ascii Bool ZArith Arith Lia.
From Verif Require Import BaseStr BaseMap M_Types M_Collect M_OpenAPI M_Parse M_Clean M_FS M_Service.
From Verif Require Import S_Service S_Cache S_Files P_FS P_Path P_Act P_Order P_Frame.
Import ListNotations.
Local Open Scope string_scope.

Section Chain.
  Context (cwd : list string) (SI : Service -> Prop) (cwd_plain : Forall plain_name cwd).
  Context (base : list string) (D : list string -> Prop) (R : Prop) (K : list string -> option (kind content)).
  Let astra := (base ++ [".astra"])%list.
  Context (D_astra : ~ D astra) (K_base : K base = Some KDir).

  Definition same_or_document (x y : option (kind content)) (d : Prop) : Prop :=
    x = y \/ (d /\ x <> Some KDir /\ y <> Some KDir).

  Definition steady (t : tree content) : Prop :=
    sorted_tree t /\ plain_tree t /\
    (forall q, ~ inside astra q -> same_or_document (kind_at q t) (K q) (D q)) /\
    (forall c, kind_at astra t = Some (KFile c) -> exists c', K astra = Some (KFile c')) /\
    (R \/ (K astra = Some KDir -> kind_at astra t = Some KDir)).
  Notation ok := (preserves (moments cwd SI steady)).

  Lemma base_outside : ~ inside astra base.
  Proof.
    intros (r & E). apply (f_equal (@List.length _)) in E. unfold astra in E. rewrite !app_length in E. cbn in E. lia.
  Qed.
  Lemma steady_base t : steady t -> kind_at base t = Some KDir.
  Proof. intros (_ & _ & O & _). destruct (O base base_outside) as [->|(_ & _ & N)]; congruence. Qed.

  Definition strictly (q : list string) : Prop := exists k r, q = (astra ++ k :: r)%list.
  Lemma strictly_inside q : strictly q -> inside astra q.
  Proof. intros (k & r & ->). now exists (k :: r). Qed.
  Lemma strictly_above q : strictly q -> is_prefix q astra = false.
  Proof.
    intros (k & r & ->). destruct (is_prefix _ astra) eqn:E; auto. apply is_prefix_spec in E as (x & E).
    apply (f_equal (@List.length _)) in E. rewrite !app_length in E. cbn in E. lia.
  Qed.
  Lemma inside_below p q : inside astra p -> is_prefix p q = true -> inside astra q.
  Proof. intros (r & ->) E. apply is_prefix_spec in E as (x & ->). exists (r ++ x)%list. now rewrite app_assoc. Qed.

  (** A file put at a place where no directory is. *)
  Lemma k_file p g t t' :
    strictly p \/ D p -> steady t -> kind_at p t <> Some KDir -> sorted_tree t' -> plain_tree t' ->
    (forall q, kind_at q t' = if is_prefix p q then (if is_prefix q p then Some (KFile g) else None) else kind_at q t) ->
    steady t'.
  Proof.
    intros HP (SO & PT & O & F & A) N SO' PT' S.
    assert (B : forall q, is_prefix p q = true -> is_prefix q p = false -> kind_at q t' = kind_at q t).
    { intros q E1 E2. rewrite S, E1, E2. symmetry. eapply absent_below; eauto. intros ->. now rewrite is_prefix_refl in E2. }
    assert (Q : kind_at astra t' = kind_at astra t).
    { destruct (is_prefix p astra) eqn:E1; [|now rewrite S, E1]. destruct (is_prefix astra p) eqn:E2; auto.
      destruct HP as [HP|HP].
      - apply strictly_above in HP. congruence.
      - rewrite (is_prefix_antisym p astra) in HP by auto. now destruct D_astra. }
    split; auto. split; auto. split; [|split].
    - intros q NI. destruct (is_prefix p q) eqn:E1; [|rewrite S, E1; auto]. destruct (is_prefix q p) eqn:E2; [|rewrite B; auto].
      assert (p = q) as -> by now apply is_prefix_antisym.
      destruct HP as [HP|HP]; [now apply strictly_inside in HP|].
      right. split; auto. split; [rewrite S, is_prefix_refl; discriminate|].
      destruct (O q NI) as [<-|(_ & _ & X)]; auto.
    - intros c. rewrite Q. apply F.
    - destruct A as [A|A]; auto. right. now rewrite Q.
  Qed.
  Lemma k_create e p t t' : Forall plain_name p -> strictly p \/ D p -> steady t -> create e p t = Some t' -> steady t'.
  Proof.
    intros PP HP KT C. assert (X := create_spec _ _ _ _ C). destruct X as (N & S). destruct KT as (SO & PT & KT).
    apply (k_file p e t t'); auto.
    - exact (conj SO (conj PT KT)).
    - eapply create_sorted; eauto.
    - intros q. rewrite S. destruct (is_prefix p q) eqn:E; auto. destruct (is_prefix q p) eqn:E2; [|congruence].
      intros _. eapply plain_prefix; eauto.
  Qed.
  Lemma k_write c p t t' : strictly p \/ D p -> steady t -> write p c t = Some t' -> steady t'.
  Proof.
    intros HP KT C. assert (X := write_spec _ _ _ _ C). destruct X as ((c' & N) & S). destruct KT as (SO & PT & KT).
    apply (k_file p c t t'); auto.
    - exact (conj SO (conj PT KT)).
    - congruence.
    - eapply write_sorted; eauto.
    - intros q. rewrite S. destruct (is_prefix p q) eqn:E; auto. destruct (is_prefix q p) eqn:E2; [|congruence].
      intros _. apply plain_prefix with (p := p); auto. apply PT. congruence.
  Qed.
  Lemma k_mkdir p t t' : Forall plain_name p -> strictly p -> steady t -> mkdir p t = Some t' -> steady t'.
  Proof.
    intros PP HP (SO & PT & O & F & A) C. assert (X := mkdir_spec _ _ _ C). destruct X as (N & S).
    assert (Q : kind_at astra t' = kind_at astra t) by (rewrite S; destruct (is_prefix p astra) eqn:E; auto; apply strictly_above in HP; congruence).
    split; [eapply mkdir_sorted; eauto|]. split; [|split; [|split]].
    - intros q. rewrite S. destruct (is_prefix p q) eqn:E; auto. destruct (is_prefix q p) eqn:E2; [|congruence].
      intros _. eapply plain_prefix; eauto.
    - intros q NI. rewrite S. destruct (is_prefix p q) eqn:E; auto. exfalso. apply NI. eapply inside_below; eauto. now apply strictly_inside.
    - intros c. rewrite Q. apply F.
    - destruct A as [A|A]; auto. right. now rewrite Q.
  Qed.
  Lemma k_remove p t t' : inside astra p -> p = astra -> R -> steady t -> remove_all p t = Some t' -> steady t'.
  Proof.
    intros HP -> HR (SO & PT & O & F & A) C. assert (NE : astra <> []) by (unfold astra; now destruct base).
    assert (S := remove_all_spec _ _ _ NE C).
    split; [eapply remove_all_sorted; eauto|]. split; [|split; [|split]]; auto.
    - intros q. rewrite S. destruct (is_prefix astra q); [congruence|auto].
    - intros q NI. rewrite S. destruct (is_prefix astra q) eqn:E; auto. exfalso. apply NI. eapply inside_below; eauto.
    - intros c. rewrite S, is_prefix_refl. discriminate.
  Qed.
  Lemma k_remove_in p t t' : strictly p -> steady t -> remove_all p t = Some t' -> steady t'.
  Proof.
    intros HP (SO & PT & O & F & A) C. assert (NE : p <> []) by (destruct HP as (k & r & ->); now destruct astra).
    assert (S := remove_all_spec _ _ _ NE C).
    assert (Q : kind_at astra t' = kind_at astra t) by (rewrite S; destruct (is_prefix p astra) eqn:E; auto; apply strictly_above in HP; congruence).
    split; [eapply remove_all_sorted; eauto|]. split; [|split; [|split]].
    - intros q. rewrite S. destruct (is_prefix p q); [congruence|auto].
    - intros q NI. rewrite S. destruct (is_prefix p q) eqn:E; auto. exfalso. apply NI. eapply inside_below; eauto. now apply strictly_inside.
    - intros c. rewrite Q. apply F.
    - destruct A as [A|A]; auto. right. now rewrite Q.
  Qed.
  Lemma k_mkdir_all t t' : Forall plain_name astra -> steady t -> mkdir_all astra t = Some t' -> steady t'.
  Proof.
    intros PP KT C. assert (KB := steady_base t KT). destruct KT as (SO & PT & O & F & A). assert (S := mkdir_all_spec _ _ _ C).
    split; [eapply mkdir_all_sorted; eauto|]. split; [|split; [|split]].
    - intros q. rewrite S. destruct (is_prefix q astra) eqn:E; auto. intros _. eapply plain_prefix; eauto.
    - intros q NI. rewrite S. destruct (is_prefix q astra) eqn:E; auto.
      assert (X : kind_at q t = Some KDir); [|rewrite <- X; auto].
      apply is_prefix_spec in E as (r & E). destruct (split_last r) as [->|(r' & j & ->)].
      + rewrite app_nil_r in E. subst. destruct NI. exists []. now rewrite app_nil_r.
      + unfold astra in E. rewrite app_assoc in E. apply app_inj_tail in E as (E & _). rewrite E in KB.
        destruct r' as [|j' r']; [now rewrite app_nil_r in KB|].
        eapply kind_below with (q := j' :: r'); [|discriminate]. now rewrite KB.
    - intros c. rewrite S, is_prefix_refl. discriminate.
    - right. intros _. now rewrite S, is_prefix_refl.
  Qed.

  Context (env : Env).
  Lemma c_create p s w : strictly (locate cwd p) \/ D (locate cwd p) -> ok (os_Create env p) s w.
  Proof. intros H. apply m_call_tree. intros t' U C. exact (k_create _ _ _ _ (locate_plain cwd p cwd_plain) H U C). Qed.
  Lemma c_write p c s w : strictly (locate cwd p) \/ D (locate cwd p) -> ok (file_Write env p c) s w.
  Proof. intros H. apply m_write. intros g t t' _ U C. exact (k_write _ _ _ _ H U C). Qed.
  Lemma c_writefile p c s w : strictly (locate cwd p) \/ D (locate cwd p) -> ok (os_WriteFile env p c) s w.
  Proof. intros H. unfold os_WriteFile. mstep; [now apply c_create|now apply c_write]. Qed.
  Lemma c_mkdir p s w : strictly (locate cwd p) -> ok (os_Mkdir env p) s w.
  Proof. intros H. apply m_call_tree. intros t' U C. exact (k_mkdir _ _ _ (locate_plain cwd p cwd_plain) H U C). Qed.
  Lemma c_removeall p s w : strictly (locate cwd p) -> ok (os_RemoveAll env p) s w.
  Proof.
    intros H. apply m_removeall.
    - intros E. exfalso. rewrite E in H. destruct H as (k & r & H). now destruct astra.
    - intros _ t t' U C. exact (k_remove_in _ _ _ H U C).
  Qed.

  Context (SI_base : forall s, SI s -> locate cwd (sv_workDir s) = base).
  Context (SI_cache : forall s, SI s -> sv_cacheEnabled s = true -> sv_cachePath s = "").

  Lemma in_astra_strictly s k : locate cwd (sv_workDir s) = base -> plain_name k -> strictly (locate cwd (path_Join [getAstraDirPath s; k])).
  Proof. intros H P. rewrite (in_astra cwd base) by auto. exists k, []. unfold astra. now rewrite <- app_assoc. Qed.
  Lemma cache_strictly s : locate cwd (sv_workDir s) = base -> sv_cachePath s = "" -> strictly (locate cwd (cachePath s)).
  Proof. intros H E. unfold cachePath. rewrite E. apply in_astra_strictly; auto. repeat split; discriminate. Qed.

  Lemma c_cache s w : locate cwd (sv_workDir s) = base -> sv_cachePath s = "" -> ok (Cache env) s w.
  Proof.
    intros B E. assert (H := cache_strictly s B E). unfold Cache, ClearCache. mstep. mstep; [mstep|].
    mstep.
    { mstep; try mstep.
      match goal with E : os_Stat _ _ _ _ = (_, ?x, _) |- preserves _ _ ?x _ =>
        assert (x = s) as -> by (unfold os_Stat in E; destruct (e_fault env (w_clock w)); congruence) end.
      mstep; [mstep|]. mstep; try mstep. now apply c_removeall. }
    mstep; [apply c_create; auto|]. mstep; [destruct (is_yaml _); mstep|]. apply c_write. auto.
  Qed.
  Lemma c_cacheIfEnabled s w : ok (cacheIfEnabled env) s w.
  Proof.
    apply m_intro. intros _ S _. unfold cacheIfEnabled. mstep. destruct (sv_cacheEnabled s) eqn:E; [|mstep].
    mstep; [apply moments_names with (n := w_names w); auto|]. 
    match goal with X : log _ _ _ = _ |- _ => unfold log in X; injection X as <- <- end. apply c_cache; auto.
  Qed.

  Lemma c_copyMain d m l n s w :
    Forall plain_name l -> strictly (locate cwd m) -> ok (copyMain env d m l n) s w.
  Proof.
    intros F H. revert n s w; induction F as [|f l P F IH]; intros n s w; cbn [copyMain]; [mstep|].
    destruct (has_suffix ".go" f); [|destruct (has_suffix ".mod" f)].
    - mstep; [mstep|]. mstep; [|apply IH]. apply c_writefile. rewrite locate_join_plain by auto.
      destruct H as (k & r & ->). left. exists k, (r ++ [f])%list. now rewrite <- app_assoc.
    - mstep; [mstep|]. apply IH.
    - apply IH.
  Qed.
  Context (SI_temp : forall s t, SI s -> SI (with_tempMain t s)).
  Lemma c_setupTempMain s w : SI s -> ok (setupTempMainPackage env) s w.
  Proof.
    intros S. assert (L := in_astra_strictly s _ (SI_base s S) plain_main).
    unfold setupTempMainPackage. mstep. mstep; [mstep|].
    mstep; [mstep; try mstep; now apply c_removeall|].
    mstep; [now apply c_mkdir|].
    apply m_intro. intros _ _ (_ & PT & _). mstep; [mstep|].
    mstep; [|apply m_modify; auto].
    apply c_copyMain; auto.
    match goal with E : os_ReadDir _ _ _ _ = _ |- _ => revert E end. unfold os_ReadDir.
    destruct (e_fault _ _); [discriminate|]. destruct (String.eqb _ _); [discriminate|].
    destruct (get _ _) as [[|es]|] eqn:G; try discriminate.
    intros [= <- _ _]. eapply names_plain; eauto.
  Qed.
  Lemma c_getMain s w : ok (GetMainPackageName env) s w.
  Proof.
    apply m_intro. intros _ S _. unfold GetMainPackageName. mstep. mstep; [|mstep; mstep].
    destruct (String.eqb _ _); [now apply c_setupTempMain|mstep].
  Qed.

  Context (SI_results : forall s r c, SI s -> SI (with_results r c s)).
  Lemma c_cleanTypes s w : ok (cleanTypes env) s w.
  Proof. unfold cleanTypes. mstep; [apply c_getMain|]. apply m_modify. auto. Qed.
  Lemma c_runCreate f s w : ok (runCreate env f) s w.
  Proof.
    destruct f as [|[l|]|a]; cbn [runCreate]; try mstep.
    revert s w; induction l as [|i l IH]; intros s w; cbn [ginCreateRoutes]; [mstep|].
    mstep. destruct (denied _ _); [apply IH|]. mstep; [mstep|]. mstep; [mstep|]. mstep; [apply m_modify; auto|apply IH].
  Qed.
  Lemma c_runParse f s w : ok (runParse env f) s w.
  Proof.
    destruct f as [| |a]; cbn [runParse]; try mstep.
    mstep; [destruct (e_usesMain _ _ _); [mstep; [apply c_getMain|mstep]|mstep]|].
    mstep. mstep; [mstep|]. mstep; [apply m_modify; auto|]. mstep.
  Qed.
  Lemma c_cleanUp s w : (SI s -> temporary s -> R) -> ok (cleanUp env) s w.
  Proof.
    intros TA. apply m_intro. intros _ S _. unfold cleanUp. mstep. mstep.
    destruct (negb _ && _) eqn:TE.
    - unfold cleanupAstraDir. mstep. assert (L : locate cwd (getAstraDirPath s) = astra) by (apply astra_at; auto).
      assert (HR : R).
      { apply TA; auto. apply andb_true_iff in TE as (T1 & T2). split; [now destruct (sv_cacheEnabled s)|].
        destruct (sv_cliMode s); congruence. }
      apply m_removeall; rewrite L.
      + intros E. symmetry in E. now apply app_cons_not_nil in E.
      + intros _ t t' U C. apply (k_remove astra t t'); auto. exists []. now rewrite app_nil_r.
    - unfold cleanupTempMainPackage. mstep. mstep; [mstep|]. mstep; try mstep. apply c_removeall.
      apply in_astra_strictly; auto. exact plain_main.
  Qed.

  Context (SI_doc : forall s m c, SI s -> SI (with_memo m (with_config c s))).
  Context (SI_outputs : forall s o, SI s -> SI (with_outputs o s)).
  Lemma c_runGenerate n o s w :
    (SI s -> sv_workDir s <> "") -> ~ is_azure o -> (forall q, output_place base o q -> strictly q \/ D q) -> ok (runGenerate env n o) s w.
  Proof.
    intros W0 NA B. apply m_intro. intros _ S _. assert (W := W0 S). unfold output_place in B.
    unfold runGenerate. destruct (out_generate o) as [|x|x|d|a] eqn:GE; try mstep.
    - unfold generateOpenAPI. mstep. mstep; [apply moments_refl|]. mstep; [apply moments_names; intros X; apply SI_doc; exact X|].
      mstep; [apply m_modify; auto|]. apply c_writefile. apply B.
      rewrite locate_join, (SI_base s S), openapiPath_spec by auto. symmetry. apply place_under.
    - unfold generateJSON. mstep. mstep; [apply m_modify; auto|]. apply c_writefile. apply B.
      rewrite locate_join, (SI_base s S), jsonPath_spec by auto. symmetry. apply place_under.
    - destruct NA. now exists d.
  Qed.

  Lemma c_setupAstraDir s w : locate cwd (sv_workDir s) = base -> ok (setupAstraDir env) s w.
  Proof.
    intros E. assert (P : plain_name ".gitignore") by (repeat split; discriminate).
    unfold setupAstraDir, setupGitIgnore. mstep. mstep.
    - apply m_call_tree. rewrite (astra_at cwd base) by auto. intros t' U C.
      apply (k_mkdir_all (w_fs w) t'); auto. rewrite <- (astra_at cwd base s E) in *. unfold astra. rewrite <- (astra_at cwd base s E). now apply locate_plain.
    - match goal with X : os_MkdirAll _ _ _ _ = (_, ?x, _) |- _ => apply call_same in X; subst x end.
      mstep. mstep; [mstep|].
      assert (HT : strictly (locate cwd (path_Join [getAstraDirPath s; ".gitignore"]))) by now apply in_astra_strictly.
      mstep; try mstep; try (apply c_create; auto). all: apply c_write; auto.
  Qed.
End Chain.
