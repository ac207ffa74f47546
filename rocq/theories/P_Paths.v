From Coq Require Import List String Ascii Bool Arith Lia ZArith.
From Verif Require Import BaseStr M_Types M_Paths S_Paths.
Import ListNotations.
Local Open Scope string_scope.

Lemma marker_iff c : is_marker c = true <-> marker c.
Proof. unfold is_marker, marker. rewrite orb_true_iff, !Ascii.eqb_eq. tauto. Qed.

Lemma span_spec s a b :
  span_nonslash s = (a, b) ->
  s = a ++ b /\ has_char "/" a = false /\ (b = "" \/ exists b', b = String "/" b').
Proof.
  revert a b. induction s as [|c s IH]; simpl; intros a b.
  - injection 1 as <- <-. auto.
  - destruct (Ascii.eqb c "/") eqn:E.
    + apply Ascii.eqb_eq in E; subst. injection 1 as <- <-. simpl; eauto.
    + destruct (span_nonslash s) as [x y] eqn:Es. injection 1 as <- <-.
      destruct (IH x y eq_refl) as (-> & H1 & H2). simpl. rewrite E. auto.
Qed.

Lemma span_app a b :
  has_char "/" a = false -> (b = "" \/ exists b', b = String "/" b') ->
  span_nonslash (a ++ b) = (a, b).
Proof.
  intros Ha Hb. induction a as [|c a IH]; simpl in *.
  - destruct Hb as [->|[b' ->]]; reflexivity.
  - apply orb_false_iff in Ha as [H1 H2]. rewrite H1, (IH H2). reflexivity.
Qed.

(** Fuel: any fuel above the length gives the same pieces. *)
Lemma match_at_len s m rest :
  match_at s = Some (m, rest) -> String.length rest < String.length s /\ s = m ++ rest.
Proof.
  destruct s as [|c r]; simpl; [discriminate|].
  destruct (is_marker c); [|discriminate].
  destruct (span_nonslash r) as [n rest'] eqn:E.
  destruct (String.eqb n "") eqn:En; [discriminate|]. injection 1 as <- <-.
  apply span_spec in E as (-> & _). rewrite length_append. simpl. split; [lia|auto].
Qed.

Lemma find_all_fuel n m s :
  String.length s < n -> String.length s < m -> find_all n s = find_all m s.
Proof.
  revert m s. induction n as [|n IH]; intros m s Hn Hm; [lia|].
  destruct m as [|m]; [lia|]. cbn [find_all]. destruct s as [|c r]; auto.
  destruct (match_at (String c r)) as [[x rest]|] eqn:E.
  - apply match_at_len in E as [E _]. f_equal. apply IH; simpl in *; lia.
  - f_equal. apply IH; simpl in *; lia.
Qed.

Lemma regex_pieces_cons c r :
  regex_pieces (String c r) =
  match match_at (String c r) with
  | Some (m, rest) => inr m :: regex_pieces rest
  | None => inl c :: regex_pieces r
  end.
Proof.
  unfold regex_pieces at 1. cbn [find_all].
  destruct (match_at (String c r)) as [[m rest]|] eqn:E.
  - f_equal. apply match_at_len in E as [E _]. apply find_all_fuel; simpl in *; lia.
  - f_equal.
Qed.

Lemma regex_pieces_nil : regex_pieces "" = [].
Proof. reflexivity. Qed.

Definition lits (s : string) : list (ascii + string) :=
  map inl (list_ascii_of_string s).

(** Pieces of one slash-free segment followed by [t]. *)
Lemma pieces_param_segment lit m name t :
  marker m -> name <> "" -> has_char "/" (lit ++ String m name) = false ->
  has_char ":" lit = false -> has_char "*" lit = false ->
  (t = "" \/ exists t', t = String "/" t') ->
  regex_pieces ((lit ++ String m name) ++ t) =
  (lits lit ++ inr (String m name) :: regex_pieces t)%list.
Proof.
  intros Hm Hn Hs H1 H2 Ht. induction lit as [|c lit IH].
  - simpl "++" at 2. change ((String m name) ++ t) with (String m (name ++ t)).
    rewrite regex_pieces_cons. cbn [match_at].
    apply marker_iff in Hm. rewrite Hm.
    rewrite span_app; auto.
    2:{ simpl in Hs. apply orb_false_iff in Hs. tauto. }
    destruct (String.eqb name "") eqn:E; [apply String.eqb_eq in E; congruence|]. reflexivity.
  - simpl in Hs, H1, H2. apply orb_false_iff in Hs as [Hs0 Hs].
    apply orb_false_iff in H1 as [H10 H1]. apply orb_false_iff in H2 as [H20 H2].
    change ((String c lit ++ String m name) ++ t) with (String c ((lit ++ String m name) ++ t)).
    rewrite regex_pieces_cons. cbn [match_at]. unfold is_marker. rewrite H10, H20. simpl.
    f_equal. apply IH; auto.
Qed.

(** A slash-free segment is either a parameter segment or plain. *)
Lemma segment_dec seg :
  (exists lit m name, seg_has lit m name seg) \/ (forall lit m name, ~ seg_has lit m name seg).
Proof.
  induction seg as [|c seg IH].
  - right. intros lit m name (H & _). destruct lit; discriminate.
  - destruct (is_marker c) eqn:Em.
    + destruct (String.eqb seg "") eqn:E.
      * apply String.eqb_eq in E; subst. right.
        intros lit m name (H & Hm & Hn & H1 & H2).
        destruct lit as [|d lit]; simpl in H.
        -- injection H as -> <-. congruence.
        -- injection H as -> H. destruct lit; discriminate.
      * left. exists "", c, seg. unfold seg_has. simpl.
        apply String.eqb_neq in E. apply marker_iff in Em. auto.
    + unfold is_marker in Em. apply orb_false_iff in Em as [E1 E2].
      destruct IH as [(lit & m & name & -> & Hm & Hn & H1 & H2)|IH].
      * left. exists (String c lit), m, name. unfold seg_has. simpl. rewrite E1, E2. auto.
      * right. intros lit m name (H & Hm & Hn & H1 & H2).
        destruct lit as [|d lit]; simpl in H.
        -- injection H as -> ->. destruct Hm; subst; simpl in *; discriminate.
        -- injection H as -> ->. simpl in H1, H2.
           apply orb_false_iff in H1 as [_ H1], H2 as [_ H2].
           apply (IH lit m name). unfold seg_has; auto.
Qed.

Lemma pieces_plain_segment seg t :
  (forall lit m name, ~ seg_has lit m name seg) -> has_char "/" seg = false ->
  (t = "" \/ exists t', t = String "/" t') ->
  regex_pieces (seg ++ t) = (lits seg ++ regex_pieces t)%list.
Proof.
  intros Hp Hs Ht. induction seg as [|c seg IH]; [reflexivity|].
  simpl in Hs. apply orb_false_iff in Hs as [Hs0 Hs].
  change (String c seg ++ t) with (String c (seg ++ t)).
  rewrite regex_pieces_cons. cbn [match_at].
  destruct (is_marker c) eqn:Em.
  - rewrite span_app; auto.
    destruct (String.eqb seg "") eqn:E.
    + apply String.eqb_eq in E; subst. reflexivity.
    + exfalso. apply (Hp "" c seg). unfold seg_has.
      apply String.eqb_neq in E. apply marker_iff in Em. auto.
  - simpl. f_equal. apply IH; auto.
    intros lit m name (-> & Hm & Hn & H1 & H2).
    unfold is_marker in Em. apply orb_false_iff in Em as [E1 E2].
    apply (Hp (String c lit) m name). unfold seg_has. simpl. rewrite E1, E2. auto.
Qed.

(** Pieces of a path, segment by segment. *)
Definition seg_pieces (seg : string) : list (ascii + string) := regex_pieces seg.

Fixpoint join_pieces (l : list (list (ascii + string))) : list (ascii + string) :=
  match l with
  | [] => []
  | [a] => a
  | a :: r => (a ++ inl "/"%char :: join_pieces r)%list
  end.

Lemma pieces_slash r : regex_pieces (String "/" r) = inl "/"%char :: regex_pieces r.
Proof. rewrite regex_pieces_cons. reflexivity. Qed.

Lemma pieces_segment seg t :
  has_char "/" seg = false -> (t = "" \/ exists t', t = String "/" t') ->
  regex_pieces (seg ++ t) = (seg_pieces seg ++ regex_pieces t)%list.
Proof.
  intros Hs Ht. unfold seg_pieces.
  destruct (segment_dec seg) as [(lit & m & name & -> & Hm & Hn & H1 & H2)|Hp].
  - rewrite pieces_param_segment; auto.
    pose proof (pieces_param_segment lit m name "" Hm Hn Hs H1 H2 (or_introl eq_refl)) as H.
    rewrite append_nil_r in H. rewrite H. rewrite <- app_assoc. reflexivity.
  - rewrite pieces_plain_segment; auto.
    pose proof (pieces_plain_segment seg "" Hp Hs (or_introl eq_refl)) as H.
    rewrite append_nil_r in H. rewrite H. rewrite <- app_assoc. reflexivity.
Qed.

Lemma pieces_join l :
  l <> [] -> Forall (fun x => has_char "/" x = false) l ->
  regex_pieces (join "/" l) = join_pieces (map seg_pieces l).
Proof.
  induction l as [|a l IH]; [congruence|]. intros _ HF. inversion HF; subst.
  destruct l as [|b l].
  - reflexivity.
  - change "/" with (str1 "/"). rewrite join_cons1. change (str1 "/") with "/".
    rewrite pieces_segment; eauto. rewrite pieces_slash, IH; auto; congruence.
Qed.

Lemma pieces_split p : regex_pieces p = join_pieces (map seg_pieces (split "/" p)).
Proof.
  rewrite <- (join_split "/" p) at 1. apply pieces_join.
  - apply split_not_nil.
  - apply split_no_char.
Qed.

Definition params_of_pieces (l : list (ascii + string)) : list Param :=
  flat_map (fun p => match p with inr m => [param_of_match m] | inl _ => [] end) l.

Lemma params_join_pieces l :
  params_of_pieces (join_pieces l) = flat_map params_of_pieces l.
Proof.
  induction l as [|a l IH]; [reflexivity|]. destruct l as [|b l].
  - simpl. now rewrite app_nil_r.
  - change (join_pieces (a :: b :: l)) with (a ++ inl "/"%char :: join_pieces (b :: l))%list.
    unfold params_of_pieces at 1. rewrite flat_map_app. cbn [flat_map app].
    f_equal. exact IH.
Qed.

Lemma params_lits s : params_of_pieces (lits s) = [].
Proof. induction s; simpl; auto. Qed.

Lemma seg_pieces_param lit m name seg :
  seg_has lit m name seg -> has_char "/" seg = false ->
  seg_pieces seg = (lits lit ++ [inr (String m name)])%list.
Proof.
  intros (-> & Hm & Hn & H1 & H2) Hs.
  pose proof (pieces_param_segment lit m name "" Hm Hn Hs H1 H2 (or_introl eq_refl)) as H.
  rewrite append_nil_r in H. exact H.
Qed.

Lemma seg_pieces_plain seg :
  (forall lit m name, ~ seg_has lit m name seg) -> has_char "/" seg = false ->
  seg_pieces seg = lits seg.
Proof.
  intros Hp Hs.
  pose proof (pieces_plain_segment seg "" Hp Hs (or_introl eq_refl)) as H.
  rewrite append_nil_r in H. unfold seg_pieces. rewrite H. apply app_nil_r.
Qed.

Theorem extract_spec p ps :
  seg_params (split "/" p) ps <-> ExtractParamsFromPath p = map spec_param ps /\
                                 seg_params (split "/" p) ps.
Proof.
  split; [|tauto]. intros H. split; auto.
  unfold ExtractParamsFromPath. fold (params_of_pieces (regex_pieces p)).
  rewrite pieces_split, params_join_pieces.
  pose proof (split_no_char "/" p) as HF.
  induction H as [|lit m name seg segs ps Hh Hs IH|seg segs ps Hp Hs IH]; auto;
    inversion HF; subst; simpl.
  - rewrite (seg_pieces_param _ _ _ _ Hh) by auto.
    unfold params_of_pieces at 1. rewrite flat_map_app.
    fold (params_of_pieces (lits lit)). rewrite params_lits. simpl.
    f_equal. apply IH; auto.
  - rewrite seg_pieces_plain by auto. rewrite params_lits. simpl. auto.
Qed.

Lemma seg_params_total segs : exists ps, seg_params segs ps.
Proof.
  induction segs as [|s segs [ps IH]]; [exists []; constructor|].
  destruct (segment_dec s) as [(lit & m & name & H)|H].
  - exists ((m, name) :: ps). econstructor; eauto.
  - exists ps. now constructor 3.
Qed.

Theorem extract_exact p :
  exists ps, seg_params (split "/" p) ps /\ ExtractParamsFromPath p = map spec_param ps.
Proof.
  destruct (seg_params_total (split "/" p)) as [ps H]. exists ps. split; auto.
  now apply extract_spec in H.
Qed.

Lemma seg_has_fun lit m name lit' m' name' seg :
  seg_has lit m name seg -> seg_has lit' m' name' seg -> lit = lit' /\ m = m' /\ name = name'.
Proof.
  intros (-> & Hm & Hn & H1 & H2) (He & Hm' & Hn' & H1' & H2').
  revert lit' He H1' H2'. induction lit as [|c lit IH]; intros [|d lit'] He H1' H2'; simpl in *.
  - injection He as -> ->. auto.
  - injection He as -> ->. exfalso.
    destruct Hm as [->| ->]; simpl in *; discriminate.
  - injection He as -> He. exfalso.
    destruct Hm' as [->| ->]; simpl in *; discriminate.
  - injection He as -> He. apply orb_false_iff in H1 as [_ H1], H2 as [_ H2], H1' as [_ H1'], H2' as [_ H2'].
    destruct (IH H1 H2 lit' He H1' H2') as (-> & -> & ->); auto.
Qed.

Lemma seg_params_fun segs ps ps' : seg_params segs ps -> seg_params segs ps' -> ps = ps'.
Proof.
  intros H. revert ps'. induction H as [|lit m name seg segs ps Hh Hs IH|seg segs ps Hp Hs IH];
    intros ps' H'; inversion H'; subst; auto.
  - match goal with H : seg_has _ _ _ seg, H' : seg_has _ _ _ seg |- _ =>
      destruct (seg_has_fun _ _ _ _ _ _ _ H H') as (? & ? & ?); subst end.
    f_equal; auto.
  - exfalso; match goal with Hn : forall lit m name, ~ seg_has _ _ _ _ |- _ => eapply Hn; eassumption end.
  - exfalso; eapply Hp; eauto.
Qed.

(** ** Rewriting *)
Definition map_pieces (f : string -> string) (l : list (ascii + string)) : string :=
  fold_right (fun p acc => match p with inr m => f m ++ acc | inl c => String c acc end) "" l.

Lemma map_pieces_app f a b : map_pieces f (a ++ b)%list = map_pieces f a ++ map_pieces f b.
Proof.
  induction a as [|[c|m] a IH]; simpl; auto.
  - now rewrite IH.
  - now rewrite IH, append_assoc.
Qed.

Lemma map_pieces_lits f s : map_pieces f (lits s) = s.
Proof.
  unfold lits. induction s as [|c s IH]; [reflexivity|].
  cbn [list_ascii_of_string map map_pieces fold_right]. f_equal. exact IH.
Qed.

Lemma map_pieces_join f l :
  l <> [] -> map_pieces f (join_pieces l) = join "/" (map (map_pieces f) l).
Proof.
  induction l as [|a l IH]; [congruence|]. intros _. destruct l as [|b l].
  - reflexivity.
  - change (join_pieces (a :: b :: l)) with (a ++ inl "/"%char :: join_pieces (b :: l))%list.
    rewrite map_pieces_app. cbn [map]. rewrite join_cons. f_equal.
    change (map_pieces f (inl "/"%char :: join_pieces (b :: l))) with
      (String "/" (map_pieces f (join_pieces (b :: l)))).
    rewrite IH by congruence. reflexivity.
Qed.

Theorem map_spec f p segs' :
  seg_mapped f (split "/" p) segs' -> MapPathParams p f = join "/" segs'.
Proof.
  intros H. unfold MapPathParams. fold (map_pieces f (regex_pieces p)).
  rewrite pieces_split, map_pieces_join.
  2:{ destruct (split "/" p) eqn:E; [now apply split_not_nil in E|discriminate]. }
  f_equal. pose proof (split_no_char "/" p) as HF.
  induction H as [|lit m name seg segs segs' Hh Hs IH|seg segs segs' Hp Hs IH]; auto;
    inversion HF; subst; simpl.
  - rewrite (seg_pieces_param _ _ _ _ Hh) by auto. rewrite map_pieces_app, map_pieces_lits.
    simpl. rewrite append_nil_r. f_equal; auto.
  - rewrite seg_pieces_plain, map_pieces_lits by auto. f_equal; auto.
Qed.

Lemma seg_mapped_total f segs : exists segs', seg_mapped f segs segs'.
Proof.
  induction segs as [|s segs [ss IH]]; [exists []; constructor|].
  destruct (segment_dec s) as [(lit & m & name & H)|H].
  - eexists. eapply sm_param; eauto.
  - eexists. eapply sm_plain; eauto.
Qed.

Theorem map_exact f p :
  exists segs', seg_mapped f (split "/" p) segs' /\ MapPathParams p f = join "/" segs'.
Proof.
  destruct (seg_mapped_total f (split "/" p)) as [ss H]. exists ss. split; auto.
  now apply map_spec.
Qed.

Theorem map_identity p : MapPathParams p (fun x => x) = p.
Proof.
  destruct (map_exact (fun x => x) p) as (ss & H & ->).
  assert (ss = split "/" p) as ->.
  { induction H as [|lit m name seg segs segs' (-> & _) Hs IH|]; subst; auto. }
  apply join_split.
Qed.

(** ** Injectivity of the OpenAPI conversion on gin paths *)
Definition conv_seg (s s' : string) : Prop :=
  (exists lit m name, seg_has lit m name s /\ s' = lit ++ openapi_repl (String m name)) \/
  ((forall lit m name, ~ seg_has lit m name s) /\ s' = s).

Lemma seg_mapped_conv segs segs' :
  seg_mapped openapi_repl segs segs' -> Forall2 conv_seg segs segs'.
Proof.
  induction 1; constructor; auto; unfold conv_seg; eauto 8.
Qed.

Lemma openapi_repl_form m name :
  marker m ->
  openapi_repl (String m name) = "{" ++ name ++ (if Ascii.eqb m ":" then "}" else "*}").
Proof. intros [->| ->]; reflexivity. Qed.

Lemma split_at_char c a b a' b' :
  has_char c a = false -> has_char c a' = false ->
  a ++ String c b = a' ++ String c b' -> a = a' /\ b = b'.
Proof.
  revert a'. induction a as [|x a IH]; intros [|y a'] H1 H2 He; simpl in *.
  - injection He; auto.
  - injection He as -> He. rewrite Ascii.eqb_refl in H2. discriminate.
  - injection He as -> He. rewrite Ascii.eqb_refl in H1. discriminate.
  - injection He as -> He. apply orb_false_iff in H1 as [_ H1], H2 as [_ H2].
    destruct (IH _ H1 H2 He) as [-> ->]; auto.
Qed.

Lemma count_markers_app a b : count_markers (a ++ b) = count_markers a + count_markers b.
Proof. induction a; simpl; auto. rewrite IHa. lia. Qed.

Lemma count_markers_0 s : count_markers s = 0 -> has_char ":" s = false /\ has_char "*" s = false.
Proof.
  induction s as [|c s IH]; simpl; auto.
  destruct (Ascii.eqb c ":") eqn:E1, (Ascii.eqb c "*") eqn:E2; simpl; try discriminate; auto.
Qed.

Lemma gin_segment_name lit m name seg :
  gin_segment seg -> seg_has lit m name seg ->
  has_char ":" name = false /\ has_char "*" name = false /\ has_char "{" lit = false /\
  has_char "}" lit = false /\ has_char "{" name = false /\ has_char "}" name = false.
Proof.
  intros (Hc & Hb1 & Hb2) (-> & Hm & Hn & H1 & H2).
  rewrite count_markers_app in Hc. rewrite has_char_append in Hb1, Hb2.
  apply orb_false_iff in Hb1 as [Hb1 Hb1'], Hb2 as [Hb2 Hb2'].
  simpl in *. apply orb_false_iff in Hb1' as [_ Hb1'], Hb2' as [_ Hb2'].
  assert (count_markers name = 0) as E.
  { destruct Hm as [->| ->]; simpl in Hc; lia. }
  apply count_markers_0 in E as [? ?]. auto 10.
Qed.

Lemma conv_seg_inj s t u :
  gin_segment s -> gin_segment t -> conv_seg s u -> conv_seg t u -> s = t.
Proof.
  intros Gs Gt [(lit & m & name & Hh & ->)|[Hp ->]] [(lit' & m' & name' & Hh' & He)|[Hp' He]].
  - pose proof (gin_segment_name _ _ _ _ Gs Hh) as (N1 & N2 & L1 & L2 & N3 & N4).
    pose proof (gin_segment_name _ _ _ _ Gt Hh') as (N1' & N2' & L1' & L2' & N3' & N4').
    destruct Hh as (-> & Hm & Hn & _). destruct Hh' as (-> & Hm' & Hn' & _).
    rewrite !openapi_repl_form in He by auto.
    apply split_at_char in He as [-> He]; auto.
    change ((fix append (s1 s2 : string) : string :=
       match s1 with "" => s2 | String c s1' => String c (append s1' s2) end)) with append in He.
    assert (name = name' /\ m = m') as [-> ->]; auto.
    destruct Hm as [->| ->], Hm' as [->| ->]; simpl in He.
    + apply split_at_char in He as [-> _]; auto.
    + exfalso. apply (f_equal (has_char "*")) in He. rewrite !has_char_append in He.
      rewrite N2, N2' in He. simpl in He. discriminate.
    + exfalso. apply (f_equal (has_char "*")) in He. rewrite !has_char_append in He.
      rewrite N2, N2' in He. simpl in He. discriminate.
    + apply split_at_char in He as [-> _]; auto.
  - exfalso. destruct Hh as (-> & Hm & _). rewrite openapi_repl_form in He by auto. subst t.
    destruct Gt as (_ & Hb & _). rewrite has_char_append in Hb. simpl in Hb.
    rewrite orb_true_r in Hb. discriminate.
  - exfalso. destruct Hh' as (-> & Hm & _). rewrite openapi_repl_form in He by auto. subst s.
    destruct Gs as (_ & Hb & _). rewrite has_char_append in Hb. simpl in Hb.
    rewrite orb_true_r in Hb. discriminate.
  - now subst.
Qed.

Lemma conv_seg_no_slash s s' :
  has_char "/" s = false -> conv_seg s s' -> has_char "/" s' = false.
Proof.
  intros Hs [(lit & m & name & (-> & Hm & _) & ->)|[_ ->]]; auto.
  rewrite has_char_append in *. apply orb_false_iff in Hs as [H1 H2]. rewrite H1.
  simpl in H2. apply orb_false_iff in H2 as [_ H2].
  destruct Hm as [->| ->]; simpl; rewrite has_char_append, H2; reflexivity.
Qed.

Theorem openapi_path_inj p q :
  gin_path p -> gin_path q -> openapi_path p = openapi_path q -> p = q.
Proof.
  unfold openapi_path. intros Gp Gq He.
  destruct (map_exact openapi_repl p) as (ps & Hp & Ep).
  destruct (map_exact openapi_repl q) as (qs & Hq & Eq).
  rewrite Ep, Eq in He. apply seg_mapped_conv in Hp, Hq.
  assert (forall l l' , Forall (fun x => has_char "/" x = false) l -> Forall2 conv_seg l l' ->
            Forall (fun x => has_char "/" x = false) l') as HF.
  { intros l l' H1 H2. induction H2; auto. inversion H1; subst.
    constructor; eauto using conv_seg_no_slash. }
  assert (forall l l', Forall2 conv_seg l l' -> l <> [] -> l' <> []) as HN.
  { intros l l' H2. destruct H2; congruence. }
  apply (f_equal (split "/")) in He.
  change "/" with (str1 "/") in He.
  rewrite !split_join in He; eauto using split_no_char, split_not_nil.
  subst qs. apply split_inj with (c := "/"%char).
  unfold gin_path in *. clear Ep Eq HF HN.
  revert Hq Gq Gp. generalize (split "/" q). revert Hp.
  generalize (split "/" p). intros l Hl. induction Hl; intros l2 H2 G2 G1; inversion H2; subst; auto.
  inversion G1; inversion G2; subst. f_equal; eauto using conv_seg_inj.
Qed.

(** ** Templates *)
Lemma templates_lit s t :
  has_char "{" s = false -> templates (s ++ t) = templates t.
Proof.
  unfold templates. induction s as [|c s IH]; simpl; auto.
  intros H. apply orb_false_iff in H as [H1 H2]. rewrite H1. auto.
Qed.

Lemma templates_in acc name t :
  has_char "}" name = false ->
  templates_from (Some acc) (name ++ String "}" t) = (acc ++ name) :: templates t.
Proof.
  revert acc. induction name as [|c name IH]; intros acc H; simpl.
  - now rewrite append_nil_r.
  - simpl in H. apply orb_false_iff in H as [H1 H2]. rewrite H1.
    rewrite IH by auto. now rewrite append_assoc.
Qed.

Lemma templates_brace name t :
  has_char "}" name = false ->
  templates ("{" ++ name ++ String "}" t) = name :: templates t.
Proof. intros H. unfold templates. simpl. rewrite templates_in by auto. reflexivity. Qed.

Lemma templates_param lit m name seg t :
  gin_segment seg -> seg_has lit m name seg ->
  templates ((lit ++ openapi_repl (String m name)) ++ t) = template_of (m, name) :: templates t.
Proof.
  intros G Hh. pose proof (gin_segment_name _ _ _ _ G Hh) as (N1 & N2 & L1 & L2 & N3 & N4).
  destruct Hh as (_ & Hm & _). rewrite append_assoc, templates_lit by auto.
  rewrite openapi_repl_form by auto. unfold template_of. simpl fst. simpl snd.
  destruct Hm as [->| ->]; cbv beta iota delta [Ascii.eqb Bool.eqb].
  - replace (("{" ++ name ++ "}") ++ t) with ("{" ++ name ++ String "}" t)
      by (rewrite append_assoc; simpl; now rewrite append_assoc).
    now rewrite templates_brace.
  - replace (("{" ++ name ++ "*}") ++ t) with ("{" ++ (name ++ "*") ++ String "}" t)
      by (now rewrite !append_assoc).
    rewrite templates_brace; auto. rewrite has_char_append, N4. reflexivity.
Qed.

Lemma templates_segs segs ps segs' t :
  Forall gin_segment segs -> seg_params segs ps -> seg_mapped openapi_repl segs segs' ->
  (segs = [] -> False) ->
  templates (join "/" segs' ++ t) = (map template_of ps ++ templates t)%list.
Proof.
  intros G Hp. revert segs' G.
  induction Hp as [|lit m name seg segs ps Hh Hs IH|seg segs ps Hpl Hs IH];
    intros segs' G Hm Hne; [congruence| |]; inversion G; subst; inversion Hm; subst.
  - match goal with H : seg_has _ _ _ seg, H' : seg_has _ _ _ seg |- _ =>
      destruct (seg_has_fun _ _ _ _ _ _ _ H H') as (? & ? & ?); subst end.
    destruct segs as [|s2 segs].
    + inversion Hs; subst.
      match goal with H : seg_mapped _ [] _ |- _ => inversion H; subst end.
      rewrite join_one. erewrite templates_param by eauto. reflexivity.
    + match goal with H : seg_mapped _ (s2 :: segs) ?l |- _ =>
        destruct l as [|s2' segs2]; [inversion H|] end.
      rewrite join_cons. rewrite append_assoc. erewrite templates_param by eauto.
      simpl. f_equal. simpl. rewrite <- IH with (segs' := s2' :: segs2); auto; try congruence.
  - exfalso; match goal with Hn : forall lit m name, ~ seg_has _ _ _ _ |- _ => eapply Hn; eassumption end.
  - exfalso; eapply Hpl; eauto.
  - assert (has_char "{" seg = false) by (match goal with H : gin_segment seg |- _ => destruct H as (_ & ? & _); auto end).
    destruct segs as [|s2 segs].
    + inversion Hs; subst.
      match goal with H : seg_mapped _ [] _ |- _ => inversion H; subst end.
      rewrite join_one. now rewrite templates_lit.
    + match goal with H : seg_mapped _ (s2 :: segs) ?l |- _ =>
        destruct l as [|s2' segs2]; [inversion H|] end.
      rewrite join_cons. rewrite append_assoc, templates_lit by auto.
      simpl. rewrite <- IH with (segs' := s2' :: segs2); auto; congruence.
Qed.

Theorem templates_openapi p ps :
  gin_path p -> seg_params (split "/" p) ps -> templates (openapi_path p) = map template_of ps.
Proof.
  intros G Hp. unfold openapi_path.
  destruct (map_exact openapi_repl p) as (ss & Hs & ->).
  rewrite <- (append_nil_r (join "/" ss)).
  rewrite (templates_segs _ ps ss "" G Hp Hs).
  - apply app_nil_r.
  - apply split_not_nil.
Qed.

(** ** Templates against declared parameters *)
Lemma map_spec_name ps : map p_name (map spec_param ps) = map snd ps.
Proof. rewrite map_map. reflexivity. Qed.

Lemma declared_iff p :
  gin_path p ->
  (templates_declared (openapi_path p) (ExtractParamsFromPath p) <->
   forall q, In q (ExtractParamsFromPath p) -> p_isRequired q = true).
Proof.
  intros G. unfold templates_declared. destruct (extract_exact p) as (ps & Hs & E).
  rewrite E. rewrite (templates_openapi p ps G Hs).
  rewrite Forall_forall. split; [tauto|]. intros H. split; [|exact H].
  rewrite map_spec_name. apply map_ext_in. intros [m n] Hin.
  specialize (H (spec_param (m, n)) (in_map _ _ _ Hin)). simpl in H.
  unfold template_of. simpl. now rewrite H.
Qed.

Lemma colon_path_required p :
  has_char "*" p = false -> forall q, In q (ExtractParamsFromPath p) -> p_isRequired q = true.
Proof.
  intros Hs q Hq. destruct (extract_exact p) as (ps & Hp & E). rewrite E in Hq.
  apply in_map_iff in Hq as ([m n] & <- & Hin). simpl.
  assert (Forall (fun s => has_char "*" s = false) (split "/" p)) as HF.
  { assert (forall c d s, has_char d s = false -> Forall (fun x => has_char d x = false) (split c s)) as HH.
    { intros c d s. induction s as [|x s IH]; simpl; intros H; [now repeat constructor|].
      apply orb_false_iff in H as [H1 H2]. specialize (IH H2).
      destruct (Ascii.eqb x c); [now constructor|].
      destruct (split c s); [constructor; simpl; now rewrite ?H1|].
      inversion IH; subst. constructor; auto. simpl. now rewrite H1. }
    now apply HH. }
  clear E. induction Hp as [|lit m' name seg segs ps Hh Hp IH|]; inversion HF; subst; simpl in Hin; auto.
  - destruct Hin as [Hin|Hin]; auto. injection Hin as -> ->.
    destruct Hh as (-> & [->| ->] & _); [reflexivity|].
    rewrite has_char_append in *. simpl in *. rewrite orb_true_r in *. discriminate.
Qed.
