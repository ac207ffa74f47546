(** Lemmas about the temporary main package. *)
From Coq Require Import List String Ascii Bool ZArith Arith Lia.
From Verif Require Import BaseStr BaseMap M_Types M_Collect M_OpenAPI M_Parse M_Clean M_FS M_Service S_Cache S_Files S_Main
  P_FS P_Path P_Act P_Frame P_Azure.
Import ListNotations.
Local Open Scope string_scope.

(** ** strings.ReplaceAll *)

Lemma replace_skip old new x : forall s, replace_all_from (String.length x) old new (x ++ s) = replace_all old new s.
Proof. induction x as [|c x IH]; intros s; auto. cbn. apply IH. Qed.

Lemma replace_here old new s : old <> "" -> replace_all old new (old ++ s) = new ++ replace_all old new s.
Proof.
  intros N. destruct old as [|c old]; [congruence|]. unfold replace_all at 1. cbn [append replace_all_from].
  assert (P : has_prefix (String c old) (String c (old ++ s)) = true) by (apply has_prefix_spec; exists s; reflexivity).
  rewrite P. cbn [String.length]. rewrite Nat.sub_succ, Nat.sub_0_r. now rewrite replace_skip.
Qed.
Lemma replace_not_here old new c s : has_prefix old (String c s) = false -> replace_all old new (String c s) = String c (replace_all old new s).
Proof. intros P. unfold replace_all at 1. cbn [replace_all_from]. now rewrite P. Qed.

Lemma replace_all_spec old new text : old <> "" -> all_replaced old new text (replace_all old new text).
Proof.
  intros N. remember (String.length text) as n eqn:L. revert text L.
  induction n as [n IH] using lt_wf_ind. intros text ->. destruct text as [|c r].
  { exists "", []. repeat split. constructor; auto. cbn. rewrite orb_false_r. destruct old; [congruence|reflexivity]. }
  destruct (has_prefix old (String c r)) eqn:P.
  - apply has_prefix_spec in P as (s & P). rewrite P, replace_here by auto.
    destruct (IH (String.length s)) with (text := s) as (f & rest & E1 & E2 & F); auto.
    { rewrite P, length_append. destruct old; [congruence|cbn; lia]. }
    exists "", (f :: rest). rewrite E2. split; [|split].
    + rewrite join_cons. cbn [append]. now rewrite E1 at 1.
    + reflexivity.
    + constructor; auto. cbn. rewrite orb_false_r. destruct old; [congruence|reflexivity].
  - destruct (IH (String.length r)) with (text := r) as (f & rest & E1 & E2 & F); auto.
    rewrite replace_not_here by auto. rewrite E2. exists (String c f), rest. split; [|split].
    + rewrite E1 at 1. destruct rest; reflexivity.
    + destruct rest; reflexivity.
    + apply Forall_cons_iff in F as (F1 & F). constructor; auto. cbn [contains]. rewrite F1, orb_false_r.
      destruct (has_prefix old (String c f)) eqn:Q; auto. apply has_prefix_spec in Q as (x & Q).
      exfalso. assert (X : has_prefix old (String c r) = true); [|congruence]. apply has_prefix_spec.
      destruct rest as [|g rest].
      * exists x. rewrite <- Q, E1. reflexivity.
      * exists (x ++ old ++ join old (g :: rest)). rewrite E1, join_cons. change (String c (f ++ ?y)) with (String c f ++ y). rewrite Q.
        now rewrite !append_assoc.
Qed.

Lemma replace_absent old new s : contains old s = false -> replace_all old new s = s.
Proof.
  induction s as [|c s IH]; cbn [contains]; intros H; auto. apply orb_false_iff in H as (H1 & H2).
  rewrite replace_not_here by auto. now rewrite IH.
Qed.

(** An occurrence with none before it. *)
Lemma replace_after old new a s :
  old <> "" -> (forall x y, a ++ old ++ s = x ++ old ++ y -> String.length a <= String.length x) ->
  replace_all old new (a ++ old ++ s) = a ++ new ++ replace_all old new s.
Proof.
  intros N. induction a as [|c a IH]; intros H; [cbn [append]; now apply replace_here|]. cbn [append] in *.
  rewrite replace_not_here.
  - f_equal. apply IH. intros x y E. specialize (H (String c x) y). cbn in H. rewrite E in H. specialize (H eq_refl). lia.
  - destruct (has_prefix old (String c (a ++ old ++ s))) eqn:P; auto. apply has_prefix_spec in P as (y & P).
    specialize (H "" y P). cbn in H. lia.
Qed.

(** No two occurrences of this text overlap. *)
Lemma only_p x y : "package main" = x ++ String "p" y -> x = "".
Proof.
  intros H. destruct x as [|c x]; auto. exfalso. cbn in H. injection H as _ H.
  do 11 (destruct x as [|? x]; cbn in H; [discriminate|injection H as _ H]). destruct x; discriminate.
Qed.
Lemma append_split a b c d : a ++ b = c ++ d -> (exists x, c = a ++ x /\ b = x ++ d) \/ (exists x, a = c ++ x /\ d = x ++ b).
Proof.
  revert c; induction a as [|k a IH]; intros c E.
  - left. exists c. auto.
  - destruct c as [|k' c].
    + right. exists (String k a). auto.
    + cbn in E. injection E as -> E. destruct (IH _ E) as [(x & -> & ->)|(x & -> & ->)]; [left|right]; exists x; auto.
Qed.
Lemma no_overlap a s x y :
  contains "package main" a = false -> a ++ "package main" ++ s = x ++ "package main" ++ y -> String.length a <= String.length x.
Proof.
  intros N E. destruct (append_split _ _ _ _ E) as [(z & -> & _)|(z & -> & E2)]; [rewrite length_append; lia|].
  destruct (append_split _ _ _ _ E2) as [(u & -> & _)|(u & E3 & E4)].
  - exfalso. assert (C : contains "package main" (x ++ "package main" ++ u) = true) by (apply contains_spec; eauto). congruence.
  - destruct u as [|c u].
    + rewrite append_nil_r in E3. subst z. exfalso.
      assert (C : contains "package main" (x ++ "package main") = true).
      { apply contains_spec. exists x, "". now rewrite append_nil_r. }
      congruence.
    + cbn in E4. injection E4 as <- _. apply only_p in E3. subst z. rewrite length_append. cbn. lia.
Qed.

Lemma copied_clause pre post :
  contains "package main" pre = false ->
  exists post', copied (CBytes (pre ++ "package main" ++ post)) = CBytes (pre ++ "package astramain" ++ post') /\
    all_replaced "package main" "package astramain" post post'.
Proof.
  intros N. exists (replace_all "package main" "package astramain" post). split; [|now apply replace_all_spec].
  unfold copied, mainPackageReplacement. f_equal. apply replace_after; [discriminate|]. intros x y. now apply no_overlap.
Qed.

(** ** The import path *)

Lemma join_two l a b : exists x, join "/" (l ++ [a; b])%list = x ++ a ++ "/" ++ b.
Proof.
  induction l as [|y l (x & IH)]; [exists ""; reflexivity|]. cbn [app]. rewrite join_cons_nonnil by (destruct l; discriminate).
  rewrite IH. exists (y ++ "/" ++ x). now rewrite !append_assoc.
Qed.

Lemma split_temp p : split "/" (p ++ "/" ++ ".astra/astramain") = (split "/" p ++ [".astra"; "astramain"])%list.
Proof. exact (split_sep "/" p ".astra/astramain"). Qed.

Lemma temp_suffix p : exists a, path_Join [p; ".astra/" ++ mainPackageReplacement] = a ++ ".astra/astramain".
Proof.
  unfold path_Join. cbn [filter]. destruct (String.eqb p "") eqn:E; cbn [negb]; [exists ""; reflexivity|].
  change (negb (String.eqb (".astra/" ++ mainPackageReplacement) "")) with true. cbv iota.
  change (join "/" [p; ".astra/" ++ mainPackageReplacement]) with (p ++ "/" ++ ".astra/astramain").
  unfold path_Clean. rewrite split_temp, fold_left_app. cbn [fold_left].
  rewrite !push_plain by (try split; discriminate). cbn [rev]. set (l := fold_left _ _ _).
  rewrite <- app_assoc. cbn [app]. destruct (join_two (rev l) ".astra" "astramain") as (x & J).
  destruct (is_rooted _).
  - exists ("/" ++ x). rewrite J. now rewrite append_assoc.
  - exists x. change (x ++ ".astra/astramain") with (x ++ ".astra" ++ "/" ++ "astramain"). rewrite <- J. now destruct (rev l).
Qed.

Lemma pushes_plain_any b l acc :
  Forall plain_name l -> fold_left (push b) l acc = (rev l ++ acc)%list.
Proof.
  revert acc; induction l as [|c l IH]; cbn; intros acc K; auto. apply Forall_cons_iff in K as ((A & B & D & _) & K).
  rewrite push_plain by (auto; split; auto). rewrite IH by auto. now rewrite <- app_assoc.
Qed.

Lemma temp_plain p : Forall plain_name (split "/" p) -> path_Join [p; ".astra/" ++ mainPackageReplacement] = p ++ "/.astra/astramain".
Proof.
  intros F. assert (NE : p <> "").
  { intros ->. cbn in F. apply Forall_cons_iff in F as ((X & _) & _). congruence. }
  unfold path_Join. cbn [filter]. apply String.eqb_neq in NE. rewrite NE. cbn [negb].
  change (negb (String.eqb (".astra/" ++ mainPackageReplacement) "")) with true. cbv iota.
  change (join "/" [p; ".astra/" ++ mainPackageReplacement]) with (p ++ "/" ++ ".astra/astramain").
  assert (R : is_rooted (p ++ "/" ++ ".astra/astramain") = false).
  { destruct p as [|c p]; [discriminate|]. unfold is_rooted. cbn [append has_prefix].
    destruct (Ascii.eqb "/" c) eqn:E; [exfalso|reflexivity]. apply Ascii.eqb_eq in E. subst c.
    cbn in F. apply Forall_cons_iff in F as ((X & _) & _). congruence. }
  unfold path_Clean. rewrite R, split_temp, pushes_plain_any.
  2:{ apply Forall_app. split; auto. repeat constructor; discriminate. }
  rewrite app_nil_r, rev_involutive, <- split_temp. 
  change (join "/" (split "/" (p ++ "/" ++ ".astra/astramain"))) with (join (str1 "/") (split "/" (p ++ "/" ++ ".astra/astramain"))).
  rewrite join_split. destruct (split "/" (_ ++ _)) eqn:E; [now apply split_not_nil in E|reflexivity].
Qed.

Lemma moduleName_first x r : has_char line_end x = false -> moduleName (CBytes ("module " ++ x ++ String line_end r)) = x.
Proof.
  intros H. unfold moduleName. rewrite <- append_assoc. change newline with line_end. rewrite split_app_sep.
  - cbn [hd]. cbn [append replace_first]. change (has_prefix "module " (String "m" _)) with true at 1. reflexivity.
  - rewrite has_char_append, H. reflexivity.
Qed.

(** ** Copying *)

Lemma readfile_ok env p s w c s' w' :
  os_ReadFile env p s w = (Ok c, s', w') -> s' = s /\ w' = tick (w_fs w) w /\ kind_at (locate (w_cwd w) p) (w_fs w) = Some (KFile c).
Proof.
  unfold os_ReadFile, kind_at. destruct (e_fault env (w_clock w)); [discriminate|]. destruct (get _ _) as [[]|]; try discriminate.
  injection 1 as <- <- <-. auto.
Qed.

Definition is_go (f : string) : bool := has_suffix ".go" f.
Definition is_mod (f : string) : bool := has_suffix ".mod" f.
Lemma mod_not_go f : is_mod f = true -> is_go f = false.
Proof.
  intros H. destruct (is_go f) eqn:G; auto. unfold is_go, is_mod in *. apply has_suffix_spec in H as (a & ->). apply has_suffix_spec in G as (b & G).
  change (a ++ ".mod") with (a ++ ".mo" ++ str1 "d") in G. change (b ++ ".go") with (b ++ ".g" ++ str1 "o") in G.
  rewrite <- !append_assoc in G. apply snoc_inj in G as (_ & G). discriminate.
Qed.

Lemma inside_not B f x : is_prefix (B ++ [".astra"; "astramain"; f]) (B ++ [x]) = false.
Proof. rewrite prefix_same_app. cbn. now rewrite andb_false_r. Qed.

Lemma copyMain_ok env wd nm B files : forall pkg s w r s' w',
  locate (w_cwd w) wd = B -> locate (w_cwd w) nm = (B ++ [".astra"; "astramain"])%list -> Forall plain_name files ->
  copyMain env wd nm files pkg s w = (Ok r, s', w') ->
  s' = s /\ w_cwd w' = w_cwd w /\
  (forall f, In f files -> is_go f = true -> exists c, kind_at (B ++ [f]) (w_fs w) = Some (KFile c) /\
     kind_at (B ++ [".astra"; "astramain"; f]) (w_fs w') = Some (KFile (copied c))) /\
  (forall q, (forall f, In f files -> is_go f = true -> is_prefix (B ++ [".astra"; "astramain"; f]) q = false) ->
     kind_at q (w_fs w') = kind_at q (w_fs w)) /\
  ((forall f, In f files -> is_mod f = false) -> r = pkg) /\
  (forall a f b, files = (a ++ f :: b)%list -> is_mod f = true -> (forall g, In g b -> is_mod g = false) ->
     exists c, kind_at (B ++ [f]) (w_fs w) = Some (KFile c) /\ r = moduleName c).
Proof.
  induction files as [|x files IH]; intros pkg s w r s' w' LB LD F E; cbn [copyMain] in E.
  { injection E as <- <- <-. repeat split; auto; [easy|]. intros [] ? ? [=]. }
  apply Forall_cons_iff in F as (PX & F).
  assert (LX : locate (w_cwd w) (path_Join [wd; x]) = (B ++ [x])%list) by (rewrite locate_join_plain by auto; now rewrite LB).
  assert (LY : locate (w_cwd w) (path_Join [nm; x]) = (B ++ [".astra"; "astramain"; x])%list).
  { rewrite locate_join_plain by auto. now rewrite LD, <- app_assoc. }
  fold (is_go x) in E. fold (is_mod x) in E. destruct (is_go x) eqn:G; [|destruct (is_mod x) eqn:M].
  - assert (M : is_mod x = false) by (destruct (is_mod x) eqn:M; auto; apply mod_not_go in M; congruence).
    apply bind_ok in E as (c & s1 & w1 & E1 & E). apply readfile_ok in E1 as (-> & -> & K1). rewrite LX in K1.
    apply bind_ok in E as ([] & s2 & w2 & E2 & E). apply writefile_ok in E2 as (-> & C2 & _ & K2).
    cbn [w_cwd tick w_fs] in *. rewrite LY in K2.
    apply IH in E as (-> & C & I1 & I2 & I3 & I4); auto; try (rewrite C2; auto).
    assert (SRC : forall f, kind_at (B ++ [f]) (w_fs w2) = kind_at (B ++ [f]) (w_fs w)) by (intros f; now rewrite K2, inside_not).
    split; auto. split; [congruence|]. split; [|split; [|split]].
    + intros f [<-|I] Gf.
      * destruct (in_dec string_dec x files) as [I|NI].
        -- destruct (I1 x I G) as (c' & A1 & A2). rewrite SRC in A1. eauto.
        -- exists c. split; auto. rewrite I2; [now rewrite K2, is_prefix_refl|].
           intros f If _. rewrite prefix_same_app. cbn. rewrite andb_true_r. apply String.eqb_neq. congruence.
      * destruct (I1 f I Gf) as (c' & A1 & A2). rewrite SRC in A1. eauto.
    + intros q Q. rewrite I2; [|intros; apply Q; auto; now right]. rewrite K2. rewrite Q by (auto; now left). reflexivity.
    + intros N. apply I3. intros; apply N; now right.
    + intros [|y a] f b EQ Mf Nb; cbn in EQ; injection EQ as -> EQ; [congruence|].
      destruct (I4 a f b EQ Mf Nb) as (c' & A1 & A2). rewrite SRC in A1. eauto.
  - apply bind_ok in E as (c & s1 & w1 & E1 & E). apply readfile_ok in E1 as (-> & -> & K1). rewrite LX in K1.
    apply IH in E as (-> & C & I1 & I2 & I3 & I4); auto. cbn [w_cwd tick w_fs] in *.
    split; auto. split; auto. split; [|split; [|split]].
    + intros f [<-|I] Gf; [congruence|]. auto.
    + intros q Q. apply I2. intros; apply Q; auto; now right.
    + intros N. rewrite N in M; [discriminate|now left].
    + intros [|y a] f b EQ Mf Nb; cbn in EQ; injection EQ as -> EQ; [|eauto]. subst b. exists c. split; auto.
  - apply IH in E as (-> & C & I1 & I2 & I3 & I4); auto.
    split; auto. split; auto. split; [|split; [|split]].
    + intros f [<-|I] Gf; [congruence|]. auto.
    + intros q Q. apply I2. intros; apply Q; auto; now right.
    + intros N. apply I3. intros; apply N; now right.
    + intros [|y a] f b EQ Mf Nb; cbn in EQ; injection EQ as -> EQ; [congruence|eauto].
Qed.

Lemma plain_dirs : plain_name ".astra" /\ plain_name "astramain".
Proof. repeat split; discriminate. Qed.

Lemma main_place s w : locate (w_cwd w) (path_Join [getAstraDirPath s; mainPackageReplacement]) = (work_dir s w ++ [".astra"; "astramain"])%list.
Proof.
  rewrite locate_join_plain by exact (proj2 plain_dirs). unfold getAstraDirPath.
  rewrite locate_join_plain by exact (proj1 plain_dirs). now rewrite <- app_assoc.
Qed.

Lemma setupMain_ok env s w s' w' :
  sane w -> setupTempMainPackage env s w = (Ok tt, s', w') ->
  let B := work_dir s w in
  let D := (B ++ [".astra"; "astramain"])%list in
  s' = with_tempMain (sv_tempMain s') s /\ w_cwd w' = w_cwd w /\ kind_at D (w_fs w') = Some KDir /\
  (forall f, kind_at (B ++ [f]) (w_fs w) <> None -> is_go f = true ->
     exists c, kind_at (B ++ [f]) (w_fs w) = Some (KFile c) /\ kind_at (D ++ [f]) (w_fs w') = Some (KFile (copied c))) /\
  (forall f x, kind_at (B ++ [f]) (w_fs w) = None \/ is_go f = false -> kind_at (D ++ f :: x) (w_fs w') = None) /\
  (forall q, is_prefix D q = false -> kind_at q (w_fs w') = kind_at q (w_fs w)) /\
  ((forall f, is_mod f = true -> kind_at (B ++ [f]) (w_fs w) = None) -> sv_tempMain s' = ".astra/astramain") /\
  (forall f, is_mod f = true -> kind_at (B ++ [f]) (w_fs w) <> None ->
     (forall g, is_mod g = true -> kind_at (B ++ [g]) (w_fs w) <> None -> g = f \/ sorted_tree (w_fs w) /\ str_lt g f) ->
     exists c, kind_at (B ++ [f]) (w_fs w) = Some (KFile c) /\
       sv_tempMain s' = path_Join [moduleName c; ".astra/" ++ mainPackageReplacement]) /\
  exists p, sv_tempMain s' = path_Join [p; ".astra/" ++ mainPackageReplacement].
Proof.
  intros (SC & ST) E B D.
  unfold setupTempMainPackage in E. unfold abind at 1, service in E.
  apply bind_ok in E as (st & s1 & w1 & E1 & E).
  assert (LD : forall w1, w_cwd w1 = w_cwd w -> locate (w_cwd w1) (path_Join [getAstraDirPath s; mainPackageReplacement]) = D).
  { intros x C. rewrite C. apply main_place. }
  apply stat_same in E1 as (-> & ->).
  apply bind_ok in E as ([] & s2 & w2 & E2 & E).
  assert (X2 : s2 = s /\ w_cwd w2 = w_cwd w /\ (forall q, is_prefix D q = false -> kind_at q (w_fs w2) = kind_at q (w_fs w)) /\
    (sorted_tree (w_fs w) -> sorted_tree (w_fs w2))).
  { destruct st; try (injection E2 as <- <-; auto). assert (E2' := E2). apply removeall_ok in E2 as (-> & C & X). cbn [w_cwd tick w_fs] in *.
    split; auto. split; auto. split.
    - intros q Q. destruct X as [(_ & ->)|(_ & X)]; auto. rewrite X, (LD w eq_refl), Q. reflexivity.
    - intros S. unfold os_RemoveAll in E2'. destruct (String.eqb _ _); [now injection E2' as <-|]. destruct (_ || _); [discriminate|].
      destruct (locate _ _) eqn:L; [discriminate|]. apply call_ok in E2' as (_ & _ & R). cbn [w_cwd tick w_fs] in *. rewrite L in R.
      eapply remove_all_sorted; eauto. discriminate. }
  destruct X2 as (-> & C2 & K2 & S2).
  apply bind_ok in E as ([] & s3 & w3 & E3 & E). apply call_ok in E3 as (-> & C3 & M). rewrite (LD w2 C2) in M.
  assert (S3 : sorted_tree (w_fs w) -> sorted_tree (w_fs w3)) by (intros; eapply mkdir_sorted; eauto).
  apply mkdir_spec in M as (_ & K3).
  apply bind_ok in E as (files & s4 & w4 & E4 & E).
  assert (NP : forall f, is_prefix D (B ++ [f]) = false).
  { intros f. unfold D. rewrite prefix_same_app. cbn. now rewrite andb_false_r. }
  assert (X4 : s4 = s /\ w4 = tick (w_fs w3) w3 /\ exists es', files = map fst es' /\ get B (w_fs w3) = Some (Dir es')).
  { unfold os_ReadDir in E4. destruct (e_fault env (w_clock w3)); [discriminate|]. destruct (String.eqb _ _); [discriminate|].
    replace (locate (w_cwd w3) (sv_workDir s)) with B in E4 by (unfold B, work_dir; congruence).
    destruct (get B (w_fs w3)) as [[|es']|]; try discriminate. injection E4 as <- <- <-. eauto. }
  destruct X4 as (-> & -> & es & -> & G3).
  assert (KB : forall f, kind_at (B ++ [f]) (w_fs w3) = kind_at (B ++ [f]) (w_fs w)).
  { intros f. now rewrite K3, NP, K2. }
  assert (NM : forall f, In f (map fst es) <-> kind_at (B ++ [f]) (w_fs w) <> None).
  { intros f. now rewrite (names_spec _ _ _ _ G3), KB. }
  apply bind_ok in E as (p & s5 & w5 & E5 & E). unfold modify in E. injection E as <- <-.
  apply (copyMain_ok env _ _ B) in E5 as (-> & C5 & I1 & I2 & I3 & I4).
  2:{ cbn. unfold B, work_dir. congruence. }
  2:{ cbn. rewrite C3. now apply LD. }
  2:{ apply Forall_forall. intros f I. apply NM, ST in I. apply Forall_app in I as (_ & I). now apply Forall_cons_iff in I. }
  cbn [w_cwd tick w_fs] in *. rewrite C3, C2 in C5.
  assert (DD : forall f : string, (D ++ [f])%list = (B ++ [".astra"; "astramain"; f])%list) by (intros f; unfold D; now rewrite <- app_assoc).
  split; [reflexivity|]. split; auto. split; [|split; [|split; [|split; [|split; [|split]]]]].
  - rewrite I2; [now rewrite K3, is_prefix_refl|]. intros f _ _. unfold D. rewrite prefix_same_app. reflexivity.
  - intros f K G. destruct (I1 f) as (c & A1 & A2); [now apply NM|auto|]. rewrite KB in A1. rewrite DD. eauto.
  - intros f x H. rewrite I2.
    + rewrite K3, is_prefix_app. rewrite <- (app_nil_r D) at 2. now rewrite prefix_same_app.
    + intros g Ig Gg. unfold D. rewrite <- app_assoc, prefix_same_app. cbn. rewrite andb_true_r. apply String.eqb_neq.
      intros ->. apply NM in Ig. destruct H as [H|H]; congruence.
  - intros q Q. rewrite I2; [now rewrite K3, Q, K2|]. intros f _ _. rewrite <- DD. destruct (is_prefix (D ++ [f]) q) eqn:P; auto.
    apply is_prefix_spec in P as (y & ->). now rewrite <- app_assoc, is_prefix_app in Q.
  - intros N. cbn [sv_tempMain with_tempMain]. rewrite I3; [reflexivity|]. intros f I. destruct (is_mod f) eqn:X; auto.
    apply NM in I. now rewrite N in I.
  - intros f Mf K U. cbn [sv_tempMain with_tempMain].
    assert (X : exists a b, map fst es = (a ++ f :: b)%list /\ forall g, In g b -> is_mod g = false).
    { apply NM in K. destruct (in_dec string_dec f (map fst es)) as [I|]; [|easy].
      assert (L : exists a b, map fst es = (a ++ f :: b)%list /\ ~ In f b).
      { clear -I. induction (map fst es) as [|x l IH]; [easy|]. destruct (in_dec string_dec f l) as [J|J].
        - destruct (IH J) as (a & b & -> & N). exists (x :: a), b. auto.
        - destruct I as [->|I]; [|easy]. exists [], l. auto. }
      destruct L as (a & b & L & N). exists a, b. split; auto. intros g Ig. destruct (is_mod g) eqn:Mg; auto. exfalso.
      destruct (U g Mg) as [->|(S & LT)]; [apply NM; rewrite L; apply in_app_iff; right; now right|now apply N|].
      assert (SS : sorted_tree (Dir es)) by exact (sorted_get _ _ _ (S3 S) G3). apply sorted_tree_dir in SS as (SS & _).
      unfold msorted, mkeys in SS. rewrite L in SS. clear -SS Ig LT.
      induction a as [|x a IH]; cbn [app] in SS; inversion SS as [|? ? S1 S2]; subst; auto.
      rewrite Forall_forall in S2. exact (str_lt_asym _ _ LT (S2 g Ig)). }
    destruct X as (a & b & L & NB). destruct (I4 a f b L Mf NB) as (c & A1 & ->). rewrite KB in A1. eauto.
  - exists p. reflexivity.
Qed.

(** ** When it works *)

Lemma readfile_works env p s w c :
  (forall n, e_fault env n = None) -> kind_at (locate (w_cwd w) p) (w_fs w) = Some (KFile c) ->
  os_ReadFile env p s w = (Ok c, s, tick (w_fs w) w).
Proof.
  intros NF K. unfold os_ReadFile. rewrite NF. unfold kind_at in K. destruct (get _ _) as [[]|]; try discriminate.
  now injection K as ->.
Qed.

Lemma copyMain_works env wd nm B files : forall pkg s w,
  (forall n, e_fault env n = None) ->
  locate (w_cwd w) wd = B -> locate (w_cwd w) nm = (B ++ [".astra"; "astramain"])%list -> Forall plain_name files ->
  kind_at (B ++ [".astra"; "astramain"]) (w_fs w) = Some KDir ->
  (forall f, In f files -> is_go f = true -> kind_at (B ++ [".astra"; "astramain"; f]) (w_fs w) <> Some KDir) ->
  (forall f, In f files -> is_go f = true \/ is_mod f = true -> exists c, kind_at (B ++ [f]) (w_fs w) = Some (KFile c)) ->
  exists r w', copyMain env wd nm files pkg s w = (Ok r, s, w').
Proof.
  induction files as [|x files IH]; intros pkg s w NF LB LD F KD KN KF; cbn [copyMain]; [unfold aret; eauto|].
  apply Forall_cons_iff in F as (PX & F).
  assert (LX : locate (w_cwd w) (path_Join [wd; x]) = (B ++ [x])%list) by (rewrite locate_join_plain by auto; now rewrite LB).
  assert (LY : locate (w_cwd w) (path_Join [nm; x]) = ((B ++ [".astra"; "astramain"]) ++ [x])%list).
  { rewrite locate_join_plain by auto. now rewrite LD. }
  fold (is_go x). fold (is_mod x). destruct (is_go x) eqn:G; [|destruct (is_mod x) eqn:M].
  - destruct (KF x (or_introl eq_refl) (or_introl G)) as (c & K).
    unfold abind at 1. rewrite (readfile_works env _ s w c) by (auto; now rewrite LX).
    destruct (writefile_works env (path_Join [nm; x]) (copied c) s (tick (w_fs w) w) (B ++ [".astra"; "astramain"]) x) as (s2 & w2 & E2); auto.
    { cbn. rewrite <- app_assoc. apply KN; auto. now left. }
    unfold abind at 1. rewrite E2. apply writefile_ok in E2 as (-> & C2 & _ & K2). cbn [w_cwd tick w_fs] in *. rewrite LY in K2.
    assert (PN : forall q, (forall y, q <> (B ++ [".astra"; "astramain"; x]) ++ y)%list -> kind_at q (w_fs w2) = kind_at q (w_fs w)).
    { intros q Q. rewrite K2. destruct (is_prefix _ q) eqn:P; auto. apply is_prefix_spec in P as (y & P). exfalso. apply (Q y).
      now rewrite P, <- !app_assoc. }
    assert (SH : forall l y, List.length l <= 2 -> (B ++ l)%list <> ((B ++ [".astra"; "astramain"; x]) ++ y)%list).
    { intros l y LE H. rewrite <- app_assoc in H. apply app_inv_head in H. subst l. cbn in LE. lia. }
    apply IH; auto; try (rewrite C2; auto).
    + rewrite PN; auto. 
    + intros f I Gf. destruct (string_dec x f) as [<-|NE].
      * rewrite K2, <- !app_assoc. cbn [app]. rewrite !is_prefix_refl. discriminate.
      * rewrite PN; [apply KN; auto; now right|]. intros y H. rewrite <- app_assoc in H. apply app_inv_head in H. cbn in H. congruence.
    + intros f I H. rewrite PN; [apply KF; auto; now right|]. intros y. apply SH. cbn. lia.
  - destruct (KF x (or_introl eq_refl) (or_intror M)) as (c & K).
    unfold abind at 1. rewrite (readfile_works env _ s w c) by (auto; now rewrite LX).
    apply IH; auto; intros; [apply KN|apply KF]; auto; now right.
  - apply IH; auto; intros; [apply KN|apply KF]; auto; now right.
Qed.

Lemma setupMain_works env s w :
  (forall n, e_fault env n = None) -> sane w -> sv_workDir s <> "" ->
  let B := work_dir s w in
  kind_at (B ++ [".astra"]) (w_fs w) = Some KDir ->
  (forall f, is_go f = true \/ is_mod f = true -> kind_at (B ++ [f]) (w_fs w) <> Some KDir) ->
  exists s' w', setupTempMainPackage env s w = (Ok tt, s', w').
Proof.
  intros NF (SC & ST) WD B KA KF. set (D := (B ++ [".astra"; "astramain"])%list).
  assert (DA : D = ((B ++ [".astra"]) ++ ["astramain"])%list) by (unfold D; now rewrite <- app_assoc).
  assert (LD : forall w1, w_cwd w1 = w_cwd w -> locate (w_cwd w1) (path_Join [getAstraDirPath s; mainPackageReplacement]) = D).
  { intros x C. rewrite C. apply main_place. }
  unfold setupTempMainPackage. unfold abind at 1, service.
  unfold os_Stat at 1. unfold abind at 1. rewrite NF, (LD w eq_refl).
  set (st := match get D (w_fs w) with Some _ => SThere | None => _ end).
  assert (X2 : exists w2, (match st with SThere => os_RemoveAll env (path_Join [getAstraDirPath s; mainPackageReplacement]) | _ => aret tt end)
     s (tick (w_fs w) w) = (Ok tt, s, w2) /\ w_cwd w2 = w_cwd w /\ forall q, kind_at q (w_fs w2) = if is_prefix D q then None else kind_at q (w_fs w)).
  { assert (NT : get D (w_fs w) = None -> forall q, kind_at q (w_fs w) = if is_prefix D q then None else kind_at q (w_fs w)).
    { intros G q. destruct (is_prefix D q) eqn:P; auto. apply is_prefix_spec in P as (y & ->). apply kind_none_below.
      unfold kind_at. now rewrite G. }
    unfold st. destruct (get D (w_fs w)) eqn:G.
    - unfold os_RemoveAll. destruct (path_join_removable (getAstraDirPath s) mainPackageReplacement (proj2 plain_dirs)) as (P1 & P2).
      rewrite P1, P2. cbn [w_cwd tick]. rewrite (LD w eq_refl).
      destruct (remove_all_some (B ++ [".astra"]) "astramain" (w_fs w) KA) as (t' & R). rewrite <- DA in R.
      assert (E : call_tree env remove_all (path_Join [getAstraDirPath s; mainPackageReplacement]) s (tick (w_fs w) w) = (Ok tt, s, tick t' (tick (w_fs w) w))).
      { apply call_works; auto. cbn [w_cwd tick w_fs]. now rewrite (LD w eq_refl). }
      rewrite E. exists (tick t' (tick (w_fs w) w)). split; [now rewrite DA; destruct (B ++ [".astra"])%list|]. split; auto.
      apply remove_all_spec; auto. rewrite DA. now destruct (B ++ [".astra"])%list.
    - exists (tick (w_fs w) w). split; [now destruct (through_file _ _)|]. split; auto. }
  destruct X2 as (w2 & E2 & C2 & K2). unfold abind at 1. rewrite E2.
  destruct (mkdir_some (B ++ [".astra"]) "astramain" (w_fs w2)) as (t3 & M).
  { rewrite <- DA, K2, is_prefix_refl. reflexivity. }
  { rewrite K2. unfold D. rewrite prefix_same_app. exact KA. }
  rewrite <- DA in M.
  unfold abind at 1, os_Mkdir. rewrite (call_works env mkdir _ s w2 t3) by (auto; now rewrite (LD w2 C2)).
  assert (K3 := proj2 (mkdir_spec _ _ _ M)).
  assert (KB : forall f, kind_at (B ++ [f]) t3 = kind_at (B ++ [f]) (w_fs w)).
  { intros f. assert (P : is_prefix D (B ++ [f]) = false) by (unfold D; rewrite prefix_same_app; cbn; now rewrite andb_false_r).
    now rewrite K3, P, K2, P. }
  assert (KDB : kind_at B t3 = Some KDir).
  { apply kind_below with (q := [".astra"]); [|discriminate]. rewrite KB, KA. discriminate. }
  unfold kind_at in KDB. destruct (get B t3) as [[|es]|] eqn:G3; try discriminate.
  assert (NM : forall f, In f (map fst es) <-> kind_at (B ++ [f]) (w_fs w) <> None).
  { intros f. now rewrite (names_spec _ _ _ _ G3), KB. }
  unfold abind at 1. unfold os_ReadDir. rewrite NF. apply String.eqb_neq in WD. rewrite WD. cbn [w_cwd tick w_fs].
  replace (locate (w_cwd w2) (sv_workDir s)) with B by (unfold B, work_dir; congruence). rewrite G3.
  destruct (copyMain_works env (sv_workDir s) (path_Join [getAstraDirPath s; mainPackageReplacement]) B (map fst es) "" s (tick t3 (tick t3 w2)))
    as (r & w4 & E4); auto.
  - cbn. unfold B, work_dir. congruence.
  - apply Forall_forall. intros f I. apply NM, ST in I. apply Forall_app in I as (_ & I). now apply Forall_cons_iff in I.
  - cbn [w_fs tick]. fold D. now rewrite K3, is_prefix_refl.
  - intros f _ _. cbn [w_fs tick]. rewrite K3. 
    assert (P : is_prefix D (B ++ [".astra"; "astramain"; f]) = true) by (unfold D; now rewrite prefix_same_app).
    assert (Q : is_prefix (B ++ [".astra"; "astramain"; f]) D = false) by (unfold D; now rewrite prefix_same_app).
    rewrite P, Q. discriminate.
  - intros f I H. cbn [w_fs tick]. rewrite KB. apply NM in I. specialize (KF f H).
    destruct (kind_at (B ++ [f]) (w_fs w)) as [[c|]|]; [eauto|congruence|congruence].
  - unfold abind. rewrite E4. unfold modify. eauto.
Qed.
