(** Proofs about the comments of types. *)
From Coq Require Import List String Ascii Bool Arith Lia.
From Verif Require Import BaseStr BaseMap M_Types M_TypeTrav S_TypeTrav P_Fields M_Docs S_Docs.
Import ListNotations.
Local Open Scope string_scope.

(** ** CommentGroup.Text *)
Lemma whitespace_iff c : isWhitespace c = true <-> whitespace c.
Proof.
  unfold isWhitespace, whitespace. cbn [In].
  rewrite !orb_true_iff, !Nat.eqb_eq. intuition.
Qed.
Lemma strip_blank w : all_whitespace w -> strip_ws w = "".
Proof.
  induction w as [|c r IH]; [reflexivity|]. intros [H1 H2]. cbn. rewrite (IH H2).
  apply whitespace_iff in H1. now rewrite H1.
Qed.
Lemma strip_stripped l l' : stripped l l' -> strip_ws l = l'.
Proof.
  intros [(w & -> & Hw) H]. induction l' as [|c r IH]; [now apply strip_blank|].
  cbn. rewrite IH.
  - destruct r; [|reflexivity]. destruct (isWhitespace c) eqn:E; [|reflexivity].
    apply whitespace_iff in E. elim (H "" c eq_refl E).
  - intros s d ->. apply (H (String c s) d). reflexivity.
Qed.
Lemma low_iff c : low c = true <-> lower_or_digit c.
Proof. unfold low, lower_or_digit. rewrite orb_true_iff, !andb_true_iff, !Nat.leb_le. reflexivity. Qed.
Lemma low_not_colon c : lower_or_digit c -> Ascii.eqb c ":" = false /\ Ascii.eqb c " " = false.
Proof.
  intros H. split; [destruct (Ascii.eqb_spec c ":") as [->|]|destruct (Ascii.eqb_spec c " ") as [->|]]; auto; exfalso;
    unfold lower_or_digit in H; cbn in H; lia.
Qed.
Lemma directive_from_spec s seen : directive_from seen s = true <->
  exists t d arg, s = t ++ ":" ++ String d arg /\ (seen = true \/ t <> "") /\ all_low t /\ lower_or_digit d.
Proof.
  revert seen. induction s as [|c r IH]; intros seen.
  - cbn. split; [discriminate|]. intros (t & d & arg & E & _). destruct t; discriminate.
  - cbn. destruct (Ascii.eqb_spec c ":") as [->|Hc].
    + rewrite andb_true_iff. split.
      * intros [-> H]. destruct r as [|d arg]; [discriminate|]. exists "", d, arg. apply low_iff in H. cbn. auto.
      * intros ([|x t] & d & arg & E & S & L & D); cbn in E; injection E.
        -- intros ->. apply low_iff in D. split; auto. destruct S; congruence.
        -- intros _ <-. destruct L as [L _]. unfold lower_or_digit in L. cbn in L. lia.
    + rewrite andb_true_iff, IH, low_iff. split.
      * intros (Lc & t & d & arg & -> & _ & L & D). exists (String c t), d, arg. cbn. split; auto. split; [right; discriminate|auto].
      * intros ([|x t] & d & arg & E & S & L & D); cbn in E; injection E; [congruence|]. intros -> <-. destruct L as [Lc L]. split; auto.
        exists t, d, arg. auto.
Qed.
Lemma isDirective_spec l : isDirective l = true <-> directive l.
Proof.
  unfold isDirective, directive. rewrite !orb_true_iff, directive_from_spec, !has_prefix_spec. split.
  - intros [[[H|H]|H]|(t & d & arg & E & S & L & D)].
    + right. destruct H as (a & ->). exists "line ", a. cbn. auto.
    + right. destruct H as (a & ->). exists "extern ", a. cbn. auto.
    + right. destruct H as (a & ->). exists "export ", a. cbn. auto 6.
    + left. exists t, d, arg. destruct S; [discriminate|auto].
  - intros [(t & d & arg & E & S & L & D)|(w & a & [<-|[<-|[<-|[]]]] & ->)].
    + right. exists t, d, arg. auto.
    + left. left. left. now exists a.
    + left. left. right. now exists a.
    + left. right. now exists a.
Qed.
Lemma directive_start c l : directive (String c l) -> Ascii.eqb c " " = false.
Proof.
  intros [(t & d & arg & E & S & L & D)|(w & a & [<-|[<-|[<-|[]]]] & E)]; try (injection E; intros _ ->; reflexivity).
  destruct t as [|x t]; [congruence|]. injection E. intros _ ->. exact (proj2 (low_not_colon x (proj1 L))).
Qed.
Lemma plain_one l : one_line l -> plain_lines l = [strip_ws l].
Proof. intros H. unfold plain_lines. now rewrite split_no_sep. Qed.

Lemma group_lines g ls : writes g ls -> flat_map comment_lines g = map strip_ws ls.
Proof.
  induction 1 as [|g ls _ IH|l g ls H _ IH|c l g ls Hc H Hd _ IH|bs g ls Hn H _ IH|l g ls Hd _ IH].
  - reflexivity.
  - cbn. now rewrite IH.
  - change (flat_map comment_lines (("// " ++ l) :: g)) with (plain_lines l ++ flat_map comment_lines g)%list.
    rewrite IH, plain_one by assumption. reflexivity.
  - cbn [flat_map]. rewrite IH. change ("//" ++ String c l) with (String "/" (String "/" (String c l))).
    unfold comment_lines. cbn [Ascii.eqb Bool.eqb]. destruct (Ascii.eqb_spec c " ") as [E|_]; [contradiction|].
    destruct (isDirective (String c l)) eqn:E; [apply isDirective_spec in E; contradiction|]. now rewrite plain_one by assumption.
  - change (flat_map comment_lines (("/*" ++ join (str1 LF) bs ++ "*/") :: g))
      with (plain_lines (take (String.length (join (str1 LF) bs ++ "*/") - 2) (join (str1 LF) bs ++ "*/")) ++ flat_map comment_lines g)%list.
    change 2 with (String.length "*/") at 1. rewrite take_length_append. unfold plain_lines. rewrite split_join by assumption.
    rewrite map_app. now rewrite IH.
  - cbn [flat_map]. rewrite IH. destruct l as [|c r].
    + exfalso. destruct Hd as [(t & d & arg & E & _)|(w & a & [<-|[<-|[<-|[]]]] & E)]; try discriminate. destruct t; discriminate.
    + change ("//" ++ String c r) with (String "/" (String "/" (String c r))). unfold comment_lines. cbn [Ascii.eqb Bool.eqb].
      rewrite (directive_start _ _ Hd), (proj2 (isDirective_spec _) Hd). reflexivity.
Qed.
(** Every group of comments has a text. *)
Lemma writes_total g : Forall comment g -> exists ls, writes g ls.
Proof.
  induction 1 as [|x g [(l & O & ->)|(s & ->)] _ (ls & IH)].
  - exists []. constructor.
  - destruct (isDirective l) eqn:E.
    { apply isDirective_spec in E. exists ls. now constructor. }
    assert (N : ~ directive l) by (intros D; apply isDirective_spec in D; congruence). destruct l as [|c r].
    + exists ("" :: ls). now constructor.
    + destruct (Ascii.eqb_spec c " ") as [->|Hc].
      * exists (r :: ls). now apply (wr_line r).
      * exists (String c r :: ls). now constructor.
  - exists (split LF s ++ ls)%list. rewrite <- (join_split LF s) at 1. constructor; auto; [apply split_not_nil|apply split_no_char].
Qed.
Lemma strip_total l : stripped l (strip_ws l).
Proof.
  induction l as [|c r ((w & E & W) & H)]; [split; [exists ""; cbn; auto|intros [|? ?] ?; discriminate]|]. cbn.
  destruct (strip_ws r) as [|d s] eqn:S.
  - cbn in E. subst w. destruct (isWhitespace c) eqn:C.
    + split; [|intros [|? ?] ?; discriminate]. exists (String c r). split; auto. split; auto. now apply whitespace_iff.
    + split; [exists r; auto|]. intros [|x s] y E; cbn in E; injection E; [|destruct s; discriminate]. intros <- D. apply whitespace_iff in D. congruence.
  - split; [exists w; split; auto; cbn; now rewrite E at 1|]. intros [|x t] y E'; [discriminate|]. injection E'. intros E1 <-. now apply (H t y).
Qed.
Lemma paragraphs_total ls : exists ps, paragraphs ls ps.
Proof.
  induction ls as [|x r (ps & IH)]; [exists []; constructor; constructor|]. destruct (String.eqb_spec x "") as [->|Hx].
  - inversion IH as [bs B|bs p rest qs B N F R P]; subst.
    + exists []. constructor. now constructor.
    + exists (p :: qs). apply (pg_cons ("" :: bs)); auto. now constructor.
  - assert (X : Forall (fun y => y <> "") [x]) by (repeat constructor; auto).
    assert (Nil : empty_lines []) by constructor.
    inversion IH as [bs B|bs p rest qs B N F R P]; subst.
    + exists [[x]]. refine (pg_cons [] [x] r [] Nil _ X _ IH); [discriminate|]. destruct B as [|y bs -> B]; [now left|right; eauto].
    + destruct B as [|y bs -> B].
      * exists ((x :: p) :: qs). refine (pg_cons [] (x :: p) rest qs Nil _ _ R P); [discriminate|now constructor].
      * exists ([x] :: p :: qs). refine (pg_cons [] [x] _ (p :: qs) Nil _ X _ IH); [discriminate|right; cbn; eauto].
Qed.
Lemma text_total g : Forall comment g -> exists t, comment_text g t.
Proof.
  intros H. destruct (writes_total g H) as (ls & W). destruct (paragraphs_total (map strip_ws ls)) as (ps & P).
  exists (text ps), ls, (map strip_ws ls), ps. split; [exact W|]. split; [|auto]. clear. induction ls; constructor; auto. apply strip_total.
Qed.
Lemma strip_all ls ls' : Forall2 stripped ls ls' -> map strip_ws ls = ls'.
Proof. induction 1 as [|l l' r r' H _ IH]; [reflexivity|]. cbn. now rewrite IH, (strip_stripped _ _ H). Qed.

(** Paragraphs with an empty line between them. *)
Fixpoint spaced (ps : list (list string)) : list string :=
  match ps with
  | [] => []
  | [p] => p
  | p :: r => p ++ "" :: spaced r
  end.
Lemma spaced_cons p q ps : spaced (p :: q :: ps) = (p ++ "" :: spaced (q :: ps))%list.
Proof. reflexivity. Qed.
Lemma collapse_blank bs l : empty_lines bs -> collapse true (bs ++ l) = collapse true l.
Proof. induction 1 as [|x r -> _ IH]; [reflexivity|]. exact IH. Qed.
Lemma collapse_full b p l : p <> [] -> Forall (fun x => x <> "") p -> collapse b (p ++ l) = (p ++ collapse false l)%list.
Proof.
  intros Hn H. revert b Hn. induction H as [|x r Hx _ IH]; [congruence|]. intros b _.
  destruct x as [|c s]; [congruence|]. cbn. f_equal. destruct r as [|y r]; [reflexivity|]. apply IH. discriminate.
Qed.
Lemma paragraphs_tail r ps : paragraphs ("" :: r) ps -> paragraphs r ps.
Proof.
  intros H. inversion H as [bs Hb|bs p rest ps' Hb Hp Hf Hr Hps]; subst.
  - inversion Hb; subst. now constructor.
  - destruct bs as [|b bs].
    + destruct p as [|x p]; [congruence|]. injection H0 as -> _. inversion Hf; congruence.
    + injection H0 as -> <-. inversion Hb; subst. now constructor.
Qed.
Lemma last_app_r {A} (l : list A) m d : m <> [] -> last (l ++ m) d = last m d.
Proof.
  intros H. induction l as [|x l IH]; [reflexivity|]. cbn [app]. rewrite <- IH.
  destruct (l ++ m)%list eqn:E; [|reflexivity]. apply app_eq_nil in E. tauto.
Qed.
Lemma last_full p : p <> [] -> Forall (fun x => x <> "") p -> last p "" <> "".
Proof. induction 2 as [|x r Hx Hr IH]; [congruence|]. destruct r; [exact Hx|]. apply IH. discriminate. Qed.
Lemma collapsed ls ps : paragraphs ls ps ->
  (ps = [] /\ collapse true ls = []) \/
  (ps <> [] /\ spaced ps <> [] /\ last (spaced ps) "" <> "" /\ (collapse true ls = spaced ps \/ collapse true ls = (spaced ps ++ [""])%list)).
Proof.
  intros H. remember (List.length ls) as n eqn:En. revert ls ps H En.
  induction n as [n IH] using lt_wf_ind. intros ls ps H En.
  inversion H as [bs Hb|bs p rest ps' Hb Hp Hf Hr Hps]; subst.
  - left. split; [reflexivity|]. rewrite <- (app_nil_r ls). now rewrite collapse_blank.
  - right. split; [discriminate|].
    assert (C : collapse true (bs ++ p ++ rest) = (p ++ collapse false rest)%list)
      by (rewrite collapse_blank by assumption; now apply collapse_full).
    assert (Lp := last_full p Hp Hf).
    destruct Hr as [->|(r & ->)].
    + inversion Hps as [? ?|bs' p' rest' ? ? Hp' ? ? ?]; subst.
      * rewrite C. cbn. rewrite app_nil_r. tauto.
      * destruct bs'; [|discriminate]. destruct p'; [congruence|discriminate].
    + destruct (IH (List.length r)) with (ls := r) (ps := ps') as [[-> Hc]|(Hne & Hs & Hl & Hc)].
      * rewrite !app_length. cbn. lia.
      * now apply paragraphs_tail.
      * reflexivity.
      * cbn [spaced]. rewrite C. cbn. rewrite Hc. tauto.
      * destruct ps' as [|q ps']; [congruence|]. rewrite spaced_cons.
        split; [destruct p; discriminate|]. split.
        { rewrite last_app_r by discriminate. change ("" :: spaced (q :: ps'))%list with ([""] ++ spaced (q :: ps'))%list.
          now rewrite last_app_r. }
        rewrite C. cbn [collapse]. destruct Hc as [->| ->]; [left; reflexivity|right].
        now rewrite <- app_assoc.
Qed.

Lemma join_app sep a b : a <> [] -> b <> [] -> join sep (a ++ b) = join sep a ++ sep ++ join sep b.
Proof.
  intros Ha Hb. induction a as [|x a IH]; [congruence|]. destruct a as [|y a].
  - rewrite join_one. destruct b; [congruence|]. apply join_cons.
  - cbn [app]. rewrite !join_cons. cbn [app] in IH. rewrite IH by discriminate. now rewrite !append_assoc.
Qed.
Lemma text_spaced ps : Forall (fun p => p <> []) ps -> join (str1 LF) (spaced ps) = text ps.
Proof.
  induction 1 as [|p r Hp Hr IH]; [reflexivity|]. unfold text in *. destruct r as [|q r].
  - reflexivity.
  - rewrite spaced_cons. cbn [map]. rewrite join_cons. cbn [map] in IH. rewrite <- IH.
    assert (N : spaced (q :: r) <> []).
    { inversion Hr; subst. destruct r; [assumption|]. rewrite spaced_cons. now destruct q. }
    rewrite join_app by (assumption || discriminate). change ("" :: spaced (q :: r))%list with ([""] ++ spaced (q :: r))%list.
    rewrite join_app by (assumption || discriminate). rewrite join_one. cbn [append]. now rewrite !append_assoc.
Qed.
Lemma paragraphs_full ls ps : paragraphs ls ps -> Forall (fun p => p <> []) ps.
Proof. induction 1; constructor; auto. Qed.

Lemma Text_text g t : comment_text g t -> Text g = (if String.eqb t "" then "" else t ++ str1 LF).
Proof.
  intros (ls & ls' & ps & Hw & Hs & Hp & ->). unfold Text. rewrite (group_lines _ _ Hw), (strip_all _ _ Hs).
  assert (T := text_spaced ps (paragraphs_full _ _ Hp)).
  destruct (collapsed _ _ Hp) as [[-> ->]|(Hn & Hne & Hl & Hc)]; [reflexivity|].
  assert (Nt : text ps <> "").
  { rewrite <- T. intros E. apply Hl. destruct (spaced ps) as [|x [|y l]]; [reflexivity|exact E|].
    rewrite join_cons in E. destruct x; discriminate. }
  apply String.eqb_neq in Nt. rewrite Nt.
  assert (J : join (str1 LF) (spaced ps ++ [""]) = text ps ++ str1 LF).
  { rewrite join_app by (assumption || discriminate). now rewrite T. }
  destruct Hc as [-> | ->].
  - destruct (spaced ps) as [|x l] eqn:E; [congruence|]. rewrite <- E in *.
    apply String.eqb_neq in Hl. now rewrite Hl.
  - destruct (spaced ps ++ [""])%list as [|x l] eqn:E; [now destruct (spaced ps)|]. rewrite <- E.
    rewrite last_app_r by discriminate. cbn. now rewrite E.
Qed.

Lemma text_unique g t t' : comment_text g t -> comment_text g t' -> t = t'.
Proof.
  intros A B. apply Text_text in A, B. rewrite A in B. destruct (String.eqb_spec t "") as [->|], (String.eqb_spec t' "") as [->|]; auto.
  - destruct t'; discriminate.
  - destruct t; discriminate.
  - clear - B. revert t' B. induction t as [|c t IH]; intros [|d t'] B; auto; cbn in B.
    + injection B. destruct t'; discriminate.
    + injection B. destruct t; discriminate.
    + injection B. intros B' ->. f_equal. auto.
Qed.

(** ** FormatDoc *)
Lemma space_bytes x c r : In x space_runes -> x = String c r -> forall a b, r <> a ++ String LF b.
Proof.
  intros H E a b Er.
  assert (F : forallb (fun x => match x with "" => true | String _ r => negb (has_char LF r) end) space_runes = true) by (vm_compute; reflexivity).
  eapply forallb_forall in F; [|exact H]. rewrite E, Er in F.
  assert (G : forall a, has_char LF (a ++ String LF b) = true).
  { clear. induction a as [|d a IH]; [reflexivity|]. cbn [append has_char]. rewrite IH. apply orb_true_r. }
  rewrite G in F. discriminate.
Qed.
Lemma append_split (x m t u : string) : x ++ m = t ++ u ->
  (exists v, t = x ++ v) \/ (exists c v, x = t ++ String c v /\ u = String c v ++ m).
Proof.
  revert t. induction x as [|c x IH]; intros t E; [left; exists t; reflexivity|].
  destruct t as [|d t].
  - right. exists c, x. split; [reflexivity|]. symmetry. exact E.
  - injection E as -> E. destruct (IH t E) as [(v & ->)|(d' & v & -> & Hu)]; [left; exists v; reflexivity|].
    right. exists d', v. split; [reflexivity|exact Hu].
Qed.
Lemma trim_line t : t <> "" -> no_outer_space t -> TrimSpace (t ++ str1 LF) = t.
Proof.
  intros Hn H. unfold TrimSpace.
  assert (P : strip_prefix space_runes (t ++ str1 LF) = None).
  { destruct (strip_prefix space_runes (t ++ str1 LF)) as [s'|] eqn:E; [|reflexivity]. exfalso.
    destruct (strip_prefix_spec _ _ _ E) as (x & Hx & Ex). symmetry in Ex.
    destruct (append_split _ _ _ _ Ex) as [(v & ->)|(c & v & -> & Eu)].
    - now destruct (H x v Hx).
    - destruct t as [|d t]; [congruence|]. assert (c = LF) by (unfold str1 in Eu; cbn [append] in Eu; congruence). subst c.
      eapply (space_bytes _ d (t ++ String LF v) Hx eq_refl t v). reflexivity. }
  rewrite (trim_with_none _ _ _ P).
  destruct (String.length (t ++ str1 LF)) as [|n] eqn:L; [rewrite length_append in L; cbn in L; lia|].
  cbn [trim_with].
  assert (S : strip_suffix space_runes (t ++ str1 LF) = Some t).
  { assert (A : forall p, In p space_runes -> p <> str1 LF -> has_suffix p (t ++ str1 LF) = false).
    { intros p Hp Np. destruct (has_suffix p (t ++ str1 LF)) eqn:E; [|reflexivity]. exfalso.
      apply has_suffix_spec in E as (q & E).
      assert (F : forallb (fun x => String.eqb x (str1 LF) || negb (has_suffix (str1 LF) x)) space_runes = true) by (vm_compute; reflexivity).
      eapply forallb_forall in F; [|exact Hp]. apply orb_true_iff in F as [F|F]; [apply String.eqb_eq in F; congruence|].
      apply negb_true_iff in F. assert (G : has_suffix (str1 LF) p = true); [|congruence].
      symmetry in E. destruct (append_split _ _ _ _ E) as [(v & ->)|(c & v & -> & Eu)].
      - apply has_suffix_spec. exists v. rewrite append_assoc in E. clear -E.
        revert E. induction q; cbn [append]; intros E; [exact E|]. injection E as E. auto.
      - destruct v as [|c' v].
        + destruct p as [|c0 p]; [now apply (space_nonempty "") in Hp|]. unfold str1 in Eu. cbn [append] in Eu. discriminate.
        + unfold str1 in Eu. cbn [append] in Eu. discriminate. }
    assert (B : forall l, (forall p, In p l -> In p space_runes) -> In (str1 LF) l -> strip_suffix l (t ++ str1 LF) = Some t).
    { induction l as [|p l IH]; intros Hl Hin; [destruct Hin|]. cbn [strip_suffix].
      destruct (String.eqb_spec p (str1 LF)) as [->|Np].
      - assert (E : has_suffix (str1 LF) (t ++ str1 LF) = true) by (apply has_suffix_spec; exists t; reflexivity).
        rewrite E. now rewrite take_length_append.
      - rewrite (A p (Hl p (or_introl eq_refl)) Np). apply IH; [intros; apply Hl; now right|].
        destruct Hin; [congruence|assumption]. }
    apply B; auto. vm_compute. auto. }
  rewrite S. apply trim_with_none.
  destruct (strip_suffix space_runes t) as [s'|] eqn:E; [|reflexivity]. exfalso.
  destruct (strip_suffix_spec _ _ _ E) as (x & Hx & ->). now destruct (H x s' Hx).
Qed.
Lemma doc_text g t : comment_text g t -> has_prefix "//" t = false -> no_outer_space t -> FormatDoc (Text g) = t.
Proof.
  intros Ht Hp Hs. rewrite (Text_text _ _ Ht). destruct (String.eqb_spec t "") as [->|Hn]; [reflexivity|].
  unfold FormatDoc, TrimPrefix.
  assert (E : has_prefix "//" (t ++ str1 LF) = false).
  { destruct t as [|a [|b t]]; [congruence| |].
    - cbn. now destruct (Ascii.eqb a "/").
    - exact Hp. }
  cbn [append] in *. rewrite E. now apply trim_line.
Qed.

(** ** The map of comments *)
Lemma add_spec_other d m s name : ts_name s <> name -> mlookup name (add_spec d m s) = mlookup name m.
Proof.
  intros H. unfold add_spec. destruct (ts_doc s), (gd_doc d); try reflexivity; now apply mlookup_insert_ne.
Qed.
Definition doc_of (d : gdecl) (s : tspec) : option string := option_map Text (comment_above d s).
Lemma add_spec_own d m s : mlookup (ts_name s) (add_spec d m s) = match doc_of d s with Some x => Some x | None => mlookup (ts_name s) m end.
Proof.
  unfold add_spec, doc_of, comment_above. destruct (ts_doc s), (gd_doc d); cbn; try reflexivity; apply mlookup_insert_eq.
Qed.
(** All the specifications of a package, in order. *)
Definition all_specs (files : list (list gdecl)) : list (gdecl * tspec) :=
  flat_map (fun f => flat_map (fun d => map (fun s => (d, s)) (gd_specs d)) f) files.
Definition step (m : list (string * string)) (x : gdecl * tspec) := add_spec (fst x) m (snd x).
Lemma fold_flat {A B C} (f : A -> list B) (g : C -> B -> C) l : forall m,
  fold_left g (flat_map f l) m = fold_left (fun m x => fold_left g (f x) m) l m.
Proof. induction l as [|x l IH]; intros m; [reflexivity|]. cbn. rewrite fold_left_app. apply IH. Qed.
Lemma fold_mapped {A B C} (f : A -> B) (g : C -> B -> C) l : forall m,
  fold_left g (map f l) m = fold_left (fun m x => g m (f x)) l m.
Proof. induction l as [|x l IH]; intros m; [reflexivity|]. cbn. apply IH. Qed.
Lemma fold_ext {A B} (f g : A -> B -> A) l : (forall a b, f a b = g a b) -> forall m, fold_left f l m = fold_left g l m.
Proof. intros H. induction l as [|x l IH]; intros m; [reflexivity|]. cbn. rewrite H. apply IH. Qed.
Lemma populate_all files : populateTypeDocMap files = fold_left step (all_specs files) [].
Proof.
  unfold populateTypeDocMap, all_specs. rewrite fold_flat. apply fold_ext. intros m f.
  rewrite fold_flat. apply fold_ext. intros m' d. rewrite fold_mapped. reflexivity.
Qed.
Lemma in_all_specs files d s : In (d, s) (all_specs files) <-> declares files d s.
Proof.
  unfold all_specs, declares. rewrite in_flat_map. split.
  - intros (f & Hf & H). apply in_flat_map in H as (d' & Hd & H). apply in_map_iff in H as (s' & E & Hs).
    injection E as -> ->. eauto.
  - intros (f & Hf & Hd & Hs). exists f. split; [assumption|]. apply in_flat_map. exists d. split; [assumption|].
    apply in_map_iff. eauto.
Qed.
Lemma fold_none l name : (forall x, In x l -> ts_name (snd x) <> name) -> forall m, mlookup name (fold_left step l m) = mlookup name m.
Proof.
  induction l as [|x l IH]; intros H m; [reflexivity|]. cbn. rewrite IH by (intros; apply H; now right).
  apply add_spec_other. apply H. now left.
Qed.
Lemma fold_own l d s : (forall x, In x l -> ts_name (snd x) = ts_name s -> x = (d, s)) ->
  forall m, mlookup (ts_name s) m = doc_of d s -> mlookup (ts_name s) (fold_left step l m) = doc_of d s.
Proof.
  induction l as [|x l IH]; intros H m Hm; [exact Hm|]. cbn. apply IH; [intros; apply H; auto; now right|].
  unfold step. destruct (String.eqb_spec (ts_name (snd x)) (ts_name s)) as [E|E].
  - rewrite (H x (or_introl eq_refl) E). cbn [fst snd]. rewrite add_spec_own, Hm. now destruct (doc_of d s).
  - now rewrite add_spec_other.
Qed.
Lemma found_doc files d s : declared_once files -> declares files d s ->
  FindDocForType files (ts_name s) = doc_of d s.
Proof.
  intros U D. unfold FindDocForType. rewrite populate_all.
  assert (Hu : forall x, In x (all_specs files) -> ts_name (snd x) = ts_name s -> x = (d, s)).
  { intros [d' s'] Hx E. apply in_all_specs in Hx. destruct (U _ _ _ _ Hx D E) as [-> ->]. reflexivity. }
  apply in_all_specs in D. apply in_split in D as (l1 & l2 & E). rewrite E in *. rewrite fold_left_app. cbn.
  apply fold_own; [intros; apply Hu; auto; apply in_app_iff; right; now right|].
  unfold step at 1. cbn [fst snd]. rewrite add_spec_own. destruct (doc_of d s) eqn:Ed; [reflexivity|].
  (* before: either not there, or the same without a comment *)
  rewrite <- Ed. apply fold_own; [intros; apply Hu; auto; apply in_app_iff; now left|]. now rewrite Ed.
Qed.
Lemma no_doc files name : (forall d s, declares files d s -> ts_name s <> name) -> FindDocForType files name = None.
Proof.
  intros H. unfold FindDocForType. rewrite populate_all. apply fold_none. intros [d s] Hx. apply (H d s). now apply in_all_specs.
Qed.
