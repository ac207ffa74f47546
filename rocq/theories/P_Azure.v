(** Azure functions: converted routes and function folders. *)
From Coq Require Import List String Ascii Bool ZArith Arith Lia.
From Verif Require Import BaseStr BaseMap M_Types M_Paths M_Collect M_OpenAPI M_Parse M_Clean M_FS M_Service.
From Verif Require Import S_Paths S_Service S_Cache S_Files S_Azure P_FS P_Path P_Paths P_Act P_Order P_Frame.
Import ListNotations.
Local Open Scope string_scope.

(** ** Routes *)

(** After the character nothing in [D] goes on with the name, whatever follows. *)
Definition safe (c : ascii) (n D : string) : Prop :=
  forall a b, D = a ++ String c b -> forall X, has_prefix n (b ++ X) = false.

Lemma split_app_char (D Y a Z : string) c :
  D ++ Y = a ++ String c Z -> (exists b, D = a ++ String c b /\ Z = b ++ Y) \/ (exists a', a = D ++ a' /\ Y = a' ++ String c Z).
Proof.
  revert a. induction D as [|d D IH]; intros a E.
  - right. exists a. auto.
  - destruct a as [|x a]; cbn in E.
    + injection E as -> <-. left. exists D. auto.
    + injection E as -> E. destruct (IH a E) as [(b & -> & ->)|(a' & -> & ->)]; [left; exists b|right; exists a']; auto.
Qed.

Lemma safe_app c n D1 D2 : safe c n D1 -> safe c n D2 -> safe c n (D1 ++ D2).
Proof.
  intros S1 S2 a b E X. apply split_app_char in E as [(b1 & -> & ->)|(a' & -> & ->)].
  - rewrite append_assoc. eapply S1. reflexivity.
  - eapply S2. reflexivity.
Qed.
Lemma safe_absent c n D : has_char c D = false -> safe c n D.
Proof. intros H a b -> X. rewrite has_char_append in H. cbn in H. rewrite Ascii.eqb_refl in H. cbn in H. now rewrite orb_true_r in H. Qed.
Lemma safe_cons c n d : safe c n (str1 c ++ d) -> forall X, has_prefix n (d ++ X) = false.
Proof. intros H X. apply (H "" d). reflexivity. Qed.
(** One occurrence of the character. *)
Lemma safe_one c n u v :
  has_char c u = false -> has_char c v = false -> (forall X, has_prefix n (v ++ X) = false) -> safe c n (u ++ String c v).
Proof.
  intros HU HV H a b E X. assert (HA : has_char c a = false \/ has_char c a = true) by (destruct (has_char c a); auto).
  destruct HA as [HA|HA].
  - apply split_at_char in E as (<- & <-); auto.
  - exfalso. symmetry in E. apply split_app_char in E as [(b' & -> & E)|(a' & -> & E)].
    + rewrite E, has_char_append in HV. cbn in HV. rewrite Ascii.eqb_refl in HV. cbn in HV. now rewrite orb_true_r in HV.
    + now rewrite has_char_append, HA in HU.
Qed.

Lemma prefix_to_slash n y X : has_char "/" n = false -> has_prefix n (y ++ String "/" X) = has_prefix n y.
Proof.
  revert y. induction n as [|c n IH]; intros y H; [destruct y; reflexivity|].
  cbn in H. apply orb_false_iff in H as (H1 & H2). destruct y as [|d y]; cbn [append has_prefix].
  - now rewrite H1.
  - destruct (Ascii.eqb c d); auto. cbn. now rewrite IH.
Qed.

Lemma replace_at D c n Y new :
  safe c n D -> replace_first (String c n) new (D ++ String c n ++ Y) = D ++ new ++ Y.
Proof.
  intros S. apply replace_first_spec; [discriminate|]. intros a' L b' E.
  change (String c n ++ b') with (String c (n ++ b')) in E. apply split_app_char in E as [(b & -> & E)|(a & -> & _)].
  - specialize (S a' b eq_refl (String c n ++ Y)). rewrite <- E in S.
    assert (T : has_prefix n (n ++ b') = true) by (apply has_prefix_spec; eauto). congruence.
  - rewrite length_append in L. lia.
Qed.

(** A segment before the one at hand, already converted, does no harm. *)
Lemma clear_prefix n y : clear_name n -> has_char "}" n = false -> y = "alpha}" \/ y = "alpha?}" -> has_prefix n y = false.
Proof.
  intros C B Y. destruct (has_prefix n y) eqn:H; auto. exfalso. apply has_prefix_spec in H as (x & H).
  assert (E : exists z, n ++ z = "alpha?").
  { destruct Y as [-> | ->].
    - destruct (split_app_char n x "alpha" "" "}" (eq_sym H)) as [(b & E & _)|(a & E & _)].
      + rewrite E in B. discriminate B.
      + exists (a ++ "?"). rewrite <- append_assoc, <- E. reflexivity.
    - destruct (split_app_char n x "alpha?" "" "}" (eq_sym H)) as [(b & E & _)|(a & E & _)].
      + rewrite E in B. discriminate B.
      + exists a. now rewrite <- E. }
  destruct E as (z & E). exact (C z E).
Qed.

Definition no_markers (s : string) : Prop := has_char ":" s = false /\ has_char "*" s = false.

(** A converted segment with its slash does no harm to a later parameter. *)
Lemma safe_converted c n lit m name :
  marker c -> n <> "" -> has_char "/" n = false -> has_char "}" n = false -> (c = ":"%char -> clear_name n) ->
  no_markers lit -> no_markers name -> marker m ->
  safe c n (lit ++ azure_form (String m name) ++ "/").
Proof.
  intros MC NE NS NB CL (L1 & L2) (N1 & N2) MM.
  assert (F : exists y, azure_form (String m name) = "{" ++ name ++ String ":" y /\ (y = "alpha}" \/ y = "alpha?}")).
  { destruct MM as [-> | ->]; eexists; (split; [reflexivity|auto]). }
  destruct F as (y & -> & Y).
  destruct MC as [-> | ->].
  - replace (lit ++ ("{" ++ name ++ String ":" y) ++ "/") with ((lit ++ "{" ++ name) ++ String ":" (y ++ "/")).
    + apply safe_one.
      * rewrite !has_char_append, L1, N1. reflexivity.
      * destruct Y as [-> | ->]; reflexivity.
      * intros X. rewrite append_assoc. change ("/" ++ X) with (String "/" X). rewrite prefix_to_slash by auto. auto using clear_prefix.
    + rewrite !append_assoc. reflexivity.
  - apply safe_absent. rewrite !has_char_append, L2, N2. destruct Y as [-> | ->]; reflexivity.
Qed.

Lemma prefix_slash n X : n <> "" -> has_char "/" n = false -> has_prefix n (String "/" X) = false.
Proof. intros NE NS. assert (H := prefix_to_slash n "" X NS). cbn [append] in H. rewrite H. destruct n; [congruence|reflexivity]. Qed.

(** Nor does a segment without parameter. *)
Lemma safe_plain c n seg :
  marker c -> n <> "" -> has_char "/" n = false -> (forall lit m name, ~ seg_has lit m name seg) -> gin_segment seg ->
  safe c n (seg ++ "/").
Proof.
  intros MC NE NS P (CM & _).
  destruct (has_char c seg) eqn:H.
  2:{ apply safe_absent. rewrite has_char_append, H. destruct MC as [-> | ->]; reflexivity. }
  assert (G : exists u v, seg = u ++ String c v /\ has_char c u = false).
  { clear - H. induction seg as [|d seg IH]; [discriminate|]. cbn in H. destruct (Ascii.eqb d c) eqn:E.
    - apply Ascii.eqb_eq in E as ->. exists "", seg. auto.
    - cbn in H. destruct (IH H) as (u & v & -> & U). exists (String d u), v. split; auto. cbn. now rewrite E. }
  destruct G as (u & v & -> & U). rewrite count_markers_app in CM. cbn [count_markers] in CM.
  assert (M1 : (Ascii.eqb c ":" || Ascii.eqb c "*") = true) by (destruct MC as [-> | ->]; reflexivity). rewrite M1 in CM.
  assert (CU : count_markers u = 0) by lia. assert (CV : count_markers v = 0) by lia.
  apply count_markers_0 in CU as (U1 & U2). apply count_markers_0 in CV as (V1 & V2).
  destruct v as [|x v].
  - rewrite append_assoc. apply safe_one; auto; [destruct MC as [-> | ->]; reflexivity|]. intros X. now apply prefix_slash.
  - exfalso. apply (P u c (String x v)). repeat split; auto. discriminate.
Qed.

Lemma convert_string mn s : marker (fst mn) ->
  convertParam s (spec_param mn) = replace_first (String (fst mn) (snd mn)) (azure_form (String (fst mn) (snd mn))) s.
Proof. destruct mn as (m & n). intros [H|H]; cbn in H; subst m; reflexivity. Qed.

Lemma seg_params_markers segs ps : seg_params segs ps -> Forall (fun mn => marker (fst mn) /\ snd mn <> "") ps.
Proof. induction 1 as [|lit m name seg segs ps H _ IH|]; auto. constructor; auto. split; apply H. Qed.

Lemma seg_params_names segs ps :
  Forall gin_segment segs -> Forall (fun x => has_char "/" x = false) segs -> seg_params segs ps ->
  Forall (fun mn => has_char "/" (snd mn) = false /\ has_char "}" (snd mn) = false) ps.
Proof.
  intros G S P. induction P as [|lit m name seg segs ps H _ IH|seg segs ps H _ IH]; inversion G; inversion S; subst; auto.
  constructor; auto. destruct (gin_segment_name lit m name seg) as (_ & _ & _ & _ & _ & B); auto. split; auto.
  destruct H as (-> & _). match goal with H : has_char "/" (_ ++ _) = false |- _ => rewrite has_char_append in H; cbn in H;
    apply orb_false_iff in H as (_ & H); apply orb_false_iff in H as (_ & H); exact H end.
Qed.

Definition later_clear (ps : list (ascii * string)) : Prop := Forall (fun mn => fst mn = ":"%char -> clear_name (snd mn)) ps.

Lemma convert_segments segs ps segs' D :
  Forall gin_segment segs -> Forall (fun x => has_char "/" x = false) segs ->
  seg_params segs ps -> seg_mapped azure_form segs segs' ->
  Forall (fun mn => safe (fst mn) (snd mn) D) ps -> later_clear (tl ps) ->
  fold_left convertParam (map spec_param ps) (D ++ join "/" segs) = D ++ join "/" segs'.
Proof.
  intros G S P. revert segs' D G S.
  induction P as [|lit m name seg segs ps H P IH|seg segs ps H P IH]; intros segs' D G S M SF LC.
  - inversion M; subst. reflexivity.
  - inversion G as [|? ? G1 G2]; inversion S as [|? ? S1 S2]; inversion SF as [|? ? F1 F2]; subst. cbn [fst snd tl] in *.
    inversion M as [|lit' m' name' ? ? segs1 H' M'|? ? segs1 H' M']; subst; [|destruct (H' _ _ _ H)].
    destruct (seg_has_fun _ _ _ _ _ _ _ H H') as (<- & <- & <-).
    destruct (gin_segment_name lit m name seg G1 H) as (X1 & X2 & _ & _ & _ & X3).
    destruct H as (E & MM & NN & L1 & L2).
    assert (SL : safe m name (D ++ lit)).
    { apply safe_app; auto. apply safe_absent. now destruct MM as [-> | ->]. }
    cbn [map fold_left]. rewrite convert_string by exact MM. cbn [fst snd]. rewrite E.
    destruct segs as [|s2 segs].
    + inversion P; subst. inversion M'; subst. cbn [map fold_left]. rewrite !join_one.
      replace (D ++ lit ++ String m name) with ((D ++ lit) ++ String m name ++ "") by now rewrite append_nil_r, append_assoc.
      rewrite replace_at by exact SL. now rewrite append_nil_r, append_assoc.
    + destruct segs1 as [|t2 segs1]; [inversion M'|]. rewrite !join_cons.
      replace (D ++ (lit ++ String m name) ++ "/" ++ join "/" (s2 :: segs)) with
        ((D ++ lit) ++ String m name ++ "/" ++ join "/" (s2 :: segs)) by now rewrite !append_assoc.
      rewrite replace_at by exact SL.
      replace ((D ++ lit) ++ azure_form (String m name) ++ "/" ++ join "/" (s2 :: segs)) with
        ((D ++ lit ++ azure_form (String m name) ++ "/") ++ join "/" (s2 :: segs)) by now rewrite !append_assoc.
      rewrite (IH (t2 :: segs1)); auto.
      * now rewrite !append_assoc.
      * assert (NM := seg_params_names _ _ G2 S2 P). assert (MK := seg_params_markers _ _ P).
        rewrite Forall_forall in *. intros (m2, n2) I. specialize (F2 _ I). destruct (NM _ I) as (A1 & A2), (MK _ I) as (A3 & A4).
        unfold later_clear in LC. rewrite Forall_forall in LC. apply safe_app; auto.
        apply safe_converted; auto; split; auto.
      * destruct ps; auto. unfold later_clear in *. now inversion LC.
  - inversion G as [|? ? G1 G2]; inversion S as [|? ? S1 S2]; subst.
    inversion M as [|lit' m' name' ? ? segs1 H' M'|? ? segs1 H' M']; subst; [destruct (H _ _ _ H')|].
    destruct segs as [|s2 segs].
    + inversion P; subst. inversion M'; subst. reflexivity.
    + destruct segs1 as [|t2 segs1]; [inversion M'|]. rewrite !join_cons.
      replace (D ++ seg ++ "/" ++ join "/" (s2 :: segs)) with ((D ++ seg ++ "/") ++ join "/" (s2 :: segs)) by now rewrite !append_assoc.
      rewrite (IH (t2 :: segs1)); auto; [now rewrite !append_assoc|].
      assert (NM := seg_params_names _ _ G2 S2 P). assert (MK := seg_params_markers _ _ P).
      rewrite Forall_forall in *. intros (m2, n2) I. specialize (SF _ I). destruct (NM _ I) as (A1 & A2), (MK _ I) as (A3 & A4).
      apply safe_app; auto. now apply safe_plain.
Qed.

Lemma safe_nil c n : safe c n "".
Proof. intros a b E. destruct a; discriminate. Qed.

Lemma convert_extra ps s : Forall (fun p => mlookup (f_type (p_field p)) acceptedTypeMap = None) ps -> fold_left convertParam ps s = s.
Proof. intros F. revert s. induction F as [|p ps H F IH]; intros s; auto. cbn [fold_left]. unfold convertParam at 2. rewrite H. apply IH. Qed.

(** ** Function folders *)

Lemma funcName_spec r : funcName r = after_last "." (rt_handler r).
Proof. unfold funcName. now rewrite after_last_split. Qed.

Lemma folder_no_dot r : Forall (fun y => has_char "." y = false) (split "/" (after_last "." (rt_handler r))).
Proof. apply split_keeps_no_char, after_last_no_char. Qed.
Lemma under_folder b r : under b (funcName r) = (b ++ folder r)%list.
Proof.
  rewrite funcName_spec. unfold under, folder. assert (F := folder_no_dot r). revert F.
  generalize (split "/" (after_last "." (rt_handler r))). intros l F.
  enough (G : forall acc, fold_left (push true) l acc = (rev (filter (fun e => negb (String.eqb e "")) l) ++ acc)%list).
  { rewrite G, rev_app_distr, !rev_involutive. reflexivity. }
  induction F as [|c l H F IH]; intros acc; [reflexivity|]. cbn [fold_left filter]. rewrite IH. unfold push.
  destruct (String.eqb c "") eqn:E; cbn [negb orb]; [reflexivity|].
  destruct (String.eqb c ".") eqn:E1; [apply String.eqb_eq in E1; subst c; discriminate|].
  destruct (String.eqb c "..") eqn:E2; [apply String.eqb_eq in E2; subst c; discriminate|].
  cbn [rev]. now rewrite <- app_assoc.
Qed.
Lemma folder_not_json r l : folder r <> (l ++ ["function.json"])%list.
Proof.
  intros E. assert (I : In "function.json" (folder r)) by (rewrite E; apply in_app_iff; right; now left).
  unfold folder in I. apply filter_In in I as (I & _). assert (F := folder_no_dot r). rewrite Forall_forall in F.
  specialize (F _ I). discriminate.
Qed.

Definition below (A : list string) (routes : list Route) (t : tree content) : Prop :=
  forall q k, kind_at (A ++ q) t = Some k <-> expected routes q k.

(** Decomposing what a call did. *)
Lemma call_ok env f p s w s' w' :
  call_tree env f p s w = (Ok tt, s', w') ->
  s' = s /\ w_cwd w' = w_cwd w /\ f (locate (w_cwd w) p) (w_fs w) = Some (w_fs w').
Proof.
  unfold call_tree. destruct (e_fault env (w_clock w)); [discriminate|]. destruct (f _ _) eqn:E; [|discriminate].
  injection 1 as <- <-. auto.
Qed.
Lemma write_ok env p c s w s' w' :
  file_Write env p c s w = (Ok tt, s', w') ->
  s' = s /\ w_cwd w' = w_cwd w /\ write (locate (w_cwd w) p) c (w_fs w) = Some (w_fs w').
Proof.
  unfold file_Write. destruct (e_fault env (w_clock w)); [discriminate|]. destruct (write _ _ _) eqn:E; [|discriminate].
  injection 1 as <- <-. auto.
Qed.
Lemma prefix_same_app (A p q : list string) : is_prefix (A ++ p) (A ++ q) = is_prefix p q.
Proof. induction A as [|a A IH]; auto. cbn. now rewrite String.eqb_refl. Qed.
Lemma writefile_ok env p c s w s' w' :
  os_WriteFile env p c s w = (Ok tt, s', w') ->
  s' = s /\ w_cwd w' = w_cwd w /\
  let l := locate (w_cwd w) p in
  kind_at l (w_fs w) <> Some KDir /\
  forall q, kind_at q (w_fs w') = if is_prefix l q then (if is_prefix q l then Some (KFile c) else None) else kind_at q (w_fs w).
Proof.
  unfold os_WriteFile, os_Create. intros E. apply bind_ok in E as ([] & s1 & w1 & E1 & E2).
  apply call_ok in E1 as (-> & C1 & F1). apply write_ok in E2 as (-> & C2 & F2). rewrite C1 in *.
  split; auto. split; auto. apply create_spec in F1 as (N & K1). apply write_spec in F2 as (_ & K2). split; [exact N|].
  intros q. rewrite K2, K1. destruct (is_prefix _ q); auto.
Qed.
(** When it works. *)
Lemma writefile_works env p c s w l k :
  (forall n, e_fault env n = None) -> locate (w_cwd w) p = (l ++ [k])%list ->
  kind_at l (w_fs w) = Some KDir -> kind_at (l ++ [k]) (w_fs w) <> Some KDir ->
  exists s' w', os_WriteFile env p c s w = (Ok tt, s', w').
Proof.
  intros NF L D N. unfold os_WriteFile, os_Create, abind, call_tree. rewrite NF, L.
  destruct (create_some (CBytes "") l k (w_fs w) N D) as (t & C). rewrite C.
  unfold file_Write. rewrite NF. cbn [w_cwd tick w_fs]. rewrite L.
  destruct (write_some (l ++ [k]) c (CBytes "") t) as (t' & W).
  - destruct l; discriminate.
  - apply create_spec in C as (_ & K). now rewrite K, is_prefix_refl.
  - rewrite W. eauto.
Qed.

Lemma NoDup_snoc {X} (l : list X) x : NoDup l -> ~ In x l -> NoDup (l ++ [x]).
Proof.
  intros N H. induction N as [|a l A N IH]; cbn; [constructor; auto; constructor|].
  constructor; [|apply IH; intros I; apply H; now right]. rewrite in_app_iff. intros [I|[->|[]]]; auto. apply H. now left.
Qed.

Lemma plain_json : plain_name "function.json".
Proof. repeat split; discriminate. Qed.

Lemma azureFunctions_ok env d A routes dn s w s' w' :
  d <> "" -> locate (w_cwd w) d = A ->
  below A dn (w_fs w) -> azureFunctions env d routes s w = (Ok tt, s', w') ->
  s' = s /\ w_cwd w' = w_cwd w /\ below A (dn ++ routes) (w_fs w') /\
  (NoDup (map folder dn) -> Forall (fun r => folder r <> []) dn ->
   NoDup (map folder (dn ++ routes)) /\ Forall (fun r => folder r <> []) (dn ++ routes)).
Proof.
  intros ND. revert dn s w. induction routes as [|r rs IH]; intros dn s w L B E; cbn [azureFunctions] in E.
  { injection E as <- <-. rewrite app_nil_r. auto. }
  apply bind_ok in E as ([] & s1 & w1 & E1 & E). apply bind_ok in E as ([] & s2 & w2 & E2 & E).
  assert (L1 : locate (w_cwd w) (path_Join [d; funcName r]) = (A ++ folder r)%list).
  { rewrite locate_join by auto. now rewrite L, under_folder. }
  apply call_ok in E1 as (-> & C1 & M). rewrite L1 in M. apply mkdir_spec in M as (N & K1).
  apply writefile_ok in E2 as (-> & C2 & _ & K2). rewrite C1, locate_join_plain, L1 in K2 by exact plain_json.
  assert (NB : forall k, ~ expected dn (folder r) k) by (intros k X; apply B in X; congruence).
  assert (BB : below A (dn ++ [r]) (w_fs w2)).
  { intros q k. rewrite K2, <- !app_assoc, !prefix_same_app, K1, !prefix_same_app.
    assert (LF : forall k', expected dn q k' -> is_prefix (folder r) q = true -> False).
    { intros k' X P. apply is_prefix_spec in P as (x & ->). apply B in X. rewrite app_assoc in X.
      rewrite (kind_none_below _ x _ N) in X. discriminate. }
    assert (EX : expected (dn ++ [r]) q k <-> expected dn q k \/ (q = folder r /\ k = KDir) \/
       (q = (folder r ++ ["function.json"])%list /\ k = KFile (CFunction [to_lower (rt_method r); "options"] (convertRoute r)))).
    { unfold expected. split.
      - intros [X|(r' & I & X)]; [auto|]. apply in_app_iff in I as [I|[<-|[]]]; [left; right; eauto|auto].
      - intros [[X|(r' & I & X)]|X]; [auto| |]; right; [exists r'|exists r]; (split; [apply in_app_iff; cbn; auto|auto]). }
    rewrite EX. clear EX.
    destruct (is_prefix (folder r) q) eqn:P.
    - apply is_prefix_spec in P as (x & ->). rewrite !prefix_same_app.
      replace (is_prefix (folder r ++ x) (folder r)) with (is_prefix x []) by (rewrite <- (app_nil_r (folder r)) at 2; now rewrite prefix_same_app).
      split.
      + destruct x as [|y x]; cbn [is_prefix].
        * intros [= <-]. right. left. now rewrite app_nil_r.
        * destruct (String.eqb "function.json" y) eqn:Y; cbn [andb]; [|discriminate]. apply String.eqb_eq in Y as <-.
          rewrite String.eqb_refl. cbn [andb]. destruct x as [|z x]; cbn [is_prefix]; [|discriminate].
          intros [= <-]. right. right. auto.
      + intros [X|[(X & ->)|(X & ->)]].
        * destruct (LF _ X eq_refl).
        * rewrite <- (app_nil_r (folder r)) in X at 2. apply app_inv_head in X as ->. reflexivity.
        * apply app_inv_head in X as ->. reflexivity.
    - assert (P2 : is_prefix (folder r ++ ["function.json"]) q = false).
      { destruct (is_prefix (folder r ++ _) q) eqn:P2; auto. apply is_prefix_spec in P2 as (x & ->).
        now rewrite <- app_assoc, is_prefix_app in P. }
      rewrite P2. rewrite (B q k). split; [auto|]. intros [X|[(-> & _)|(-> & _)]]; auto.
      + now rewrite is_prefix_refl in P.
      + now rewrite is_prefix_refl in P2. }
  destruct (IH (dn ++ [r])%list s w2) as (-> & C3 & B3 & D3); auto; [now rewrite C2, C1|].
  split; auto. split; [now rewrite C3, C2, C1|]. rewrite <- app_assoc in B3, D3. split; [exact B3|].
  intros D F. apply D3.
  - rewrite map_app. cbn [map]. apply NoDup_snoc; auto.
    intros X. apply in_map_iff in X as (r' & X & I). apply (NB KDir). rewrite <- X. right. exists r'. auto.
  - apply Forall_app. split; auto. constructor; auto. intros X. apply (NB KDir). left. auto.
Qed.

(** ** The whole output *)

Lemma removeall_ok env p s w s' w' :
  os_RemoveAll env p s w = (Ok tt, s', w') ->
  s' = s /\ w_cwd w' = w_cwd w /\
  (p = "" /\ w_fs w' = w_fs w \/
   locate (w_cwd w) p <> [] /\ forall q, kind_at q (w_fs w') = if is_prefix (locate (w_cwd w) p) q then None else kind_at q (w_fs w)).
Proof.
  unfold os_RemoveAll. destruct (String.eqb p "") eqn:P.
  { apply String.eqb_eq in P. injection 1 as <- <-. auto. }
  destruct (String.eqb p "." || has_suffix "/." p); [discriminate|].
  destruct (locate (w_cwd w) p) as [|k l] eqn:L; [discriminate|]. intros E. apply call_ok in E as (-> & C & R). rewrite L in R.
  split; auto. split; auto. right. split; [discriminate|]. intros q. apply remove_all_spec; auto. discriminate.
Qed.

Lemma expected_nil q k : expected [] q k <-> q = [] /\ k = KDir.
Proof. split; [intros [X|(r & [] & _)]; auto|intros X; now left]. Qed.

Lemma generateAzure_ok env dir s w s' w' :
  sv_workDir s <> "" -> generateAzure env dir s w = (Ok tt, s', w') ->
  s' = s /\ below (place (work_dir s w) dir) (sv_routes s) (w_fs w') /\
  NoDup (map folder (sv_routes s)) /\ Forall (fun r => folder r <> []) (sv_routes s) /\
  (forall q, inside (work_dir s w ++ [".astra"; "azure"]) q -> kind_at q (w_fs w') = None).
Proof.
  intros WD E. set (A := (work_dir s w ++ [".astra"; "azure"])%list).
  assert (LA : forall w1, w_cwd w1 = w_cwd w -> locate (w_cwd w1) (path_Join [getAstraDirPath s; "azure"]) = A).
  { intros w1 C. rewrite C, locate_join_plain by exact plain_azure. unfold getAstraDirPath.
    rewrite locate_join_plain by (repeat split; discriminate). now rewrite <- app_assoc. }
  assert (LD : forall w1, w_cwd w1 = w_cwd w -> locate (w_cwd w1) (path_Join [sv_workDir s; dir]) = place (work_dir s w) dir).
  { intros w1 C. rewrite C, locate_join by auto. symmetry. apply place_under. }
  unfold generateAzure in E. apply bind_ok in E as (d & s1 & w1 & E1 & E).
  unfold SetupTempOutputDir in E1. unfold abind at 1, service in E1. apply bind_ok in E1 as ([] & s0 & w0 & E0 & E1).
  injection E1 as <- <- <-. apply call_ok in E0 as (-> & C0 & M). rewrite (LA w eq_refl) in M. apply mkdir_spec in M as (_ & K0).
  unfold abind at 1, service in E. apply bind_ok in E as ([] & s2 & w2 & E2 & E).
  assert (B0 : below A [] (w_fs w0)).
  { intros q k. rewrite expected_nil, K0, is_prefix_app. rewrite <- (app_nil_r A) at 2. rewrite prefix_same_app.
    destruct q; cbn [is_prefix]; split; [intros [= <-]; auto|intros (_ & ->); auto|discriminate|intros ([=] & _)]. }
  apply (azureFunctions_ok env _ A) with (dn := []) in E2 as (-> & C2 & B2 & D2); auto;
    [|apply join_plain_nonempty, plain_azure].
  destruct D2 as (D2 & F2); [constructor|constructor|]. cbn [app] in *.
  unfold MoveTempOutputDir in E. unfold abind at 1, service in E. apply bind_ok in E as (st & s3 & w3 & E3 & E).
  assert (ST : kind_at (place (work_dir s w) dir) (w_fs w2) = None \/ st <> SAbsent).
  { unfold os_Stat in E3. rewrite (LD w2) in E3 by congruence. destruct (e_fault env (w_clock w2)); [injection E3 as <- _ _; right; discriminate|].
    unfold kind_at. destruct (get _ (w_fs w2)); [injection E3 as <- _ _; right; discriminate|left; reflexivity]. }
  apply stat_same in E3 as (-> & ->).
  apply bind_ok in E as ([] & s4 & w4 & E4 & E).
  set (D := place (work_dir s w) dir) in *.
  assert (X4 : s4 = s /\ w_cwd w4 = w_cwd w /\
    ((forall q, kind_at q (w_fs w4) = kind_at q (w_fs w2)) /\ kind_at D (w_fs w2) = None \/
     forall q, kind_at q (w_fs w4) = if is_prefix D q then None else kind_at q (w_fs w2))).
  { assert (RM : os_RemoveAll env (path_Join [sv_workDir s; dir]) s (tick (w_fs w2) w2) = (Ok tt, s4, w4) ->
       s4 = s /\ w_cwd w4 = w_cwd w /\ forall q, kind_at q (w_fs w4) = if is_prefix D q then None else kind_at q (w_fs w2)).
    { intros X. apply removeall_ok in X as (-> & C4 & X). cbn [w_cwd tick w_fs] in *. split; auto. split; [congruence|].
      destruct X as [(X & _)|(_ & X)].
      - exfalso. unfold path_Join in X. cbn [filter] in X. apply String.eqb_neq in WD. rewrite WD in X. cbn [negb] in X.
        assert (CN : forall p, path_Clean p <> "").
        { intros p. unfold path_Clean. destruct (is_rooted p); [discriminate|]. set (l := rev _).
          assert (KL : Forall kept l) by (apply Forall_rev, pushes_kept; constructor).
          destruct l as [|y l]; [discriminate|]. inversion KL as [|? ? (KY & _) _]; subst. intros H.
          destruct l; [rewrite join_one in H; auto|]. rewrite join_cons in H. apply append_eq_nil in H as (-> & _). auto. }
        destruct (negb (String.eqb dir "")); revert X; apply CN.
      - intros q. rewrite X. now rewrite (LD w2) by congruence. }
    destruct st; [destruct (RM E4) as (R1 & R2 & R3); auto| |destruct (RM E4) as (R1 & R2 & R3); auto].
    injection E4 as <- <-. split; auto. split; [cbn; congruence|]. left. destruct ST as [ST|ST]; [auto|congruence]. }
  destruct X4 as (-> & C4 & K4). unfold os_Rename in E. apply call_ok in E as (-> & C5 & R).
  rewrite (LA w4 C4), (LD w4 C4) in R. fold D in R.
  assert (KA : forall q, kind_at (A ++ q) (w_fs w2) = None \/ is_prefix D A = false).
  { intros q. destruct (is_prefix D A) eqn:P; auto. left. exfalso.
    assert (KN : kind_at A (w_fs w4) = None).
    { apply is_prefix_spec in P as (x & P). destruct K4 as [(K4 & N)|K4].
      - rewrite K4, P. now apply kind_none_below.
      - rewrite K4, P. now rewrite is_prefix_app. }
    unfold rename in R. unfold kind_at in KN. destruct (get A (w_fs w4)) as [[]|]; discriminate. }
  assert (PD : is_prefix D A = false).
  { destruct (KA []) as [X|X]; auto. rewrite app_nil_r in X. assert (Y := proj2 (B2 [] KDir) (or_introl (conj eq_refl eq_refl))).
    rewrite app_nil_r in Y. congruence. }
  assert (PS : is_prefix A D = false).
  { destruct (is_prefix A D) eqn:P; auto. exfalso. unfold rename in R. destruct (get A (w_fs w4)); [|discriminate].
    rewrite P, PD in R. discriminate. }
  destruct (rename_spec _ _ _ _ R PS) as (_ & K5).
  assert (K4A : forall q, kind_at (A ++ q) (w_fs w4) = kind_at (A ++ q) (w_fs w2)).
  { intros q. destruct K4 as [(K4 & _)|K4]; [apply K4|]. rewrite K4. destruct (is_prefix D (A ++ q)) eqn:P; auto. exfalso.
    destruct (is_prefix_total D A (A ++ q) P (is_prefix_app _ _)); congruence. }
  split; auto. split.
  { intros q k. rewrite K5, is_prefix_app, after_prefix_app.
    assert (P : is_prefix A (D ++ q) = false).
    { destruct (is_prefix A (D ++ q)) eqn:P; auto. destruct (is_prefix_total A D _ P (is_prefix_app _ _)); congruence. }
    rewrite P, K4A. apply B2. }
  split; auto. split; auto.
  intros q (x & ->). rewrite K5. now rewrite is_prefix_app.
Qed.

(** It answers or reports an error. *)
Definition answers {A} (m : act A) : Prop := forall s w, match fst (fst (m s w)) with Ok _ | Err _ => True | _ => False end.
Lemma a_bind {A B} (m : act A) (f : A -> act B) : answers m -> (forall a, answers (f a)) -> answers (abind m f).
Proof.
  intros H1 H2 s w. unfold abind. specialize (H1 s w). destruct (m s w) as [[[a|e| |] s'] w']; cbn in *; auto. apply H2.
Qed.
Lemma a_call env f p : answers (call_tree env f p).
Proof. intros s w. unfold call_tree. destruct (e_fault env (w_clock w)); cbn; auto. destruct (f _ _); cbn; auto. Qed.
Lemma a_write env p c : answers (file_Write env p c).
Proof. intros s w. unfold file_Write. destruct (e_fault env (w_clock w)); cbn; auto. destruct (write _ _ _); cbn; auto. Qed.
Lemma a_stat env p : answers (os_Stat env p).
Proof. intros s w. unfold os_Stat. destruct (e_fault env (w_clock w)); cbn; auto. Qed.
Lemma a_removeall env p : answers (os_RemoveAll env p).
Proof.
  intros s w. unfold os_RemoveAll. destruct (String.eqb p ""); cbn; auto. destruct (_ || _); cbn; auto.
  destruct (locate _ _); cbn; auto. apply a_call.
Qed.
Lemma a_service : answers service.
Proof. now intros s w. Qed.
Lemma a_ret {A} (a : A) : answers (aret a).
Proof. now intros s w. Qed.
Lemma a_azureFunctions env d l : answers (azureFunctions env d l).
Proof.
  induction l as [|r l IH]; cbn [azureFunctions]; [apply a_ret|].
  apply a_bind; [apply a_call|intros _]. apply a_bind; [|intros _; exact IH].
  apply a_bind; [apply a_call|intros _; apply a_write].
Qed.
Lemma a_generateAzure env d : answers (generateAzure env d).
Proof.
  unfold generateAzure, SetupTempOutputDir, MoveTempOutputDir.
  apply a_bind; [|intros t]. { apply a_bind; [apply a_service|intros s]. apply a_bind; [apply a_call|intros _; apply a_ret]. }
  apply a_bind; [apply a_service|intros s]. apply a_bind; [apply a_azureFunctions|intros _].
  apply a_bind; [apply a_service|intros s']. apply a_bind; [apply a_stat|intros st].
  apply a_bind; [destruct st; (apply a_removeall || apply a_ret)|intros _]. intros s2 w2. apply a_call.
Qed.

(** ** When it works *)

Lemma call_works env f p s w t :
  (forall n, e_fault env n = None) -> f (locate (w_cwd w) p) (w_fs w) = Some t -> call_tree env f p s w = (Ok tt, s, tick t w).
Proof. intros NF E. unfold call_tree. now rewrite NF, E. Qed.

Lemma azureFunctions_works env d A routes dn s w :
  (forall n, e_fault env n = None) -> d <> "" -> locate (w_cwd w) d = A -> below A dn (w_fs w) ->
  Forall (fun r => exists x, folder r = [x]) routes -> NoDup (map folder (dn ++ routes)) ->
  Forall (fun r => folder r <> []) dn ->
  exists w', azureFunctions env d routes s w = (Ok tt, s, w').
Proof.
  intros NF ND. revert dn w. induction routes as [|r rs IH]; intros dn w L B F D FD; [exists w; reflexivity|].
  cbn [azureFunctions]. apply Forall_cons_iff in F as ((x & FX) & F'). subst A.
  assert (L1 : locate (w_cwd w) (path_Join [d; funcName r]) = (locate (w_cwd w) d ++ folder r)%list).
  { rewrite locate_join by auto. now rewrite under_folder. }
  assert (KA : kind_at (locate (w_cwd w) d) (w_fs w) = Some KDir).
  { rewrite <- (app_nil_r (locate _ d)). apply B. left. auto. }
  assert (KN : kind_at (locate (w_cwd w) d ++ [x]) (w_fs w) = None).
  { destruct (kind_at (locate (w_cwd w) d ++ [x]) (w_fs w)) as [k|] eqn:K; auto. exfalso. apply B in K as [([=] & _)|(r' & I & [(K & _)|(K & _)])].
    - rewrite map_app in D. cbn [map] in D. apply NoDup_remove_2 in D. apply D, in_app_iff. left. apply in_map_iff. exists r'. split; auto. congruence.
    - destruct (folder r') as [|y [|z l]]; try discriminate. cbn in K. injection K as K. subst x.
      apply (folder_not_json r []). exact FX. }
  destruct (mkdir_some _ _ _ KN KA) as (t1 & M).
  assert (E1 : os_Mkdir env (path_Join [d; funcName r]) s w = (Ok tt, s, tick t1 w)).
  { apply call_works; auto. now rewrite L1, FX. }
  unfold abind at 1. rewrite E1.
  assert (K1 := proj2 (mkdir_spec _ _ _ M)).
  destruct (writefile_works env (path_Join [path_Join [d; funcName r]; "function.json"])
     (CFunction (associatedMethods (rt_method r)) (convertRoute r)) s (tick t1 w) (locate (w_cwd w) d ++ [x]) "function.json") as (s2 & w2 & E2); auto.
  { cbn [w_cwd tick]. rewrite locate_join_plain by exact plain_json. now rewrite L1, FX. }
  { cbn [w_fs tick]. now rewrite K1, is_prefix_refl. }
  { cbn [w_fs tick]. rewrite K1, is_prefix_app. destruct (is_prefix (_ ++ ["function.json"]) _) eqn:P; [|discriminate].
    apply is_prefix_spec in P as (y & P). rewrite <- !app_assoc in P. apply app_inv_head in P. discriminate. }
  unfold abind at 1. rewrite E2.
  assert (E12 : azureFunctions env d [r] s w = (Ok tt, s2, w2)).
  { cbn [azureFunctions]. unfold abind at 1. rewrite E1. unfold abind at 1. rewrite E2. reflexivity. }
  destruct (azureFunctions_ok env d _ [r] dn s w s2 w2 ND eq_refl B E12) as (-> & C2 & B2 & _).
  apply (IH (dn ++ [r])%list); auto; rewrite ?C2; auto.
  - now rewrite <- app_assoc.
  - apply Forall_app. split; auto. constructor; auto. rewrite FX. discriminate.
Qed.

Lemma azureFunctions_outside env d A routes s w s' w' :
  d <> "" -> locate (w_cwd w) d = A -> azureFunctions env d routes s w = (Ok tt, s', w') ->
  forall q, is_prefix A q = false -> kind_at q (w_fs w') = kind_at q (w_fs w).
Proof.
  intros ND. revert s w. induction routes as [|r rs IH]; intros s w L E q P; cbn [azureFunctions] in E.
  { now injection E as <- <-. }
  apply bind_ok in E as ([] & s1 & w1 & E1 & E). apply bind_ok in E as ([] & s2 & w2 & E2 & E).
  assert (L1 : locate (w_cwd w) (path_Join [d; funcName r]) = (A ++ folder r)%list).
  { rewrite locate_join by auto. now rewrite L, under_folder. }
  apply call_ok in E1 as (-> & C1 & M). rewrite L1 in M. apply mkdir_spec in M as (N & K1).
  apply writefile_ok in E2 as (-> & C2 & _ & K2). rewrite C1, locate_join_plain, L1 in K2 by exact plain_json.
  assert (Q : forall x, is_prefix (A ++ x) q = false).
  { intros x. destruct (is_prefix (A ++ x) q) eqn:X; auto. apply is_prefix_spec in X as (y & ->).
    now rewrite <- app_assoc, is_prefix_app in P. }
  rewrite (IH s w2); auto; [|congruence]. rewrite K2, <- app_assoc, Q, K1, Q. reflexivity.
Qed.

Lemma generateAzure_works env dir s w :
  (forall n, e_fault env n = None) -> plain_name dir -> dir <> ".astra" -> sv_workDir s <> "" ->
  kind_at (work_dir s w) (w_fs w) = Some KDir ->
  kind_at (work_dir s w ++ [".astra"]) (w_fs w) = Some KDir ->
  kind_at (work_dir s w ++ [".astra"; "azure"]) (w_fs w) = None ->
  Forall (fun r => exists x, folder r = [x]) (sv_routes s) -> NoDup (map folder (sv_routes s)) ->
  exists w', generateAzure env dir s w = (Ok tt, s, w').
Proof.
  intros NF PL NA WD KB KS KA F D. set (A := (work_dir s w ++ [".astra"; "azure"])%list) in *.
  assert (AE : A = ((work_dir s w ++ [".astra"]) ++ ["azure"])%list) by (unfold A; now rewrite <- app_assoc).
  assert (LA : forall w1, w_cwd w1 = w_cwd w -> locate (w_cwd w1) (path_Join [getAstraDirPath s; "azure"]) = A).
  { intros w1 C. rewrite C, locate_join_plain by exact plain_azure. unfold getAstraDirPath.
    rewrite locate_join_plain by (repeat split; discriminate). now rewrite <- app_assoc. }
  assert (LD : forall w1, w_cwd w1 = w_cwd w -> locate (w_cwd w1) (path_Join [sv_workDir s; dir]) = (work_dir s w ++ [dir])%list).
  { intros w1 C. rewrite C. now apply locate_join_plain. }
  rewrite AE in KA. destruct (mkdir_some _ _ _ KA KS) as (t1 & M). rewrite <- AE in M.
  assert (E1 : os_Mkdir env (path_Join [getAstraDirPath s; "azure"]) s w = (Ok tt, s, tick t1 w)).
  { apply call_works; auto. now rewrite (LA w eq_refl). }
  unfold generateAzure, SetupTempOutputDir, MoveTempOutputDir, abind at 1 2 3, service. rewrite E1. unfold aret, abind at 1.
  assert (K1 := proj2 (mkdir_spec _ _ _ M)).
  assert (B0 : below A [] (w_fs (tick t1 w))).
  { intros q k. rewrite expected_nil. cbn [w_fs tick]. rewrite K1, is_prefix_app. rewrite <- (app_nil_r A) at 2. rewrite prefix_same_app.
    destruct q; cbn [is_prefix]; split; [intros [= <-]; auto|intros (_ & ->); auto|discriminate|intros ([=] & _)]. }
  assert (NE := join_plain_nonempty (getAstraDirPath s) "azure" plain_azure).
  destruct (azureFunctions_works env (path_Join [getAstraDirPath s; "azure"]) A (sv_routes s) [] s (tick t1 w)) as (w2 & E2); auto.
  unfold abind at 1. rewrite E2.
  destruct (azureFunctions_ok env _ A (sv_routes s) [] s (tick t1 w) s w2 NE (LA (tick t1 w) eq_refl) B0 E2) as (_ & C2 & B2 & _).
  cbn [app w_cwd tick] in C2, B2.
  assert (K2 := azureFunctions_outside env _ A (sv_routes s) s (tick t1 w) s w2 NE (LA (tick t1 w) eq_refl) E2). cbn [w_fs tick] in K2.
  unfold abind at 1, service. unfold abind at 1. unfold os_Stat at 1. rewrite NF, (LD w2 C2).
  set (Dp := (work_dir s w ++ [dir])%list) in *.
  assert (KB2 : kind_at (work_dir s w) (w_fs w2) = Some KDir).
  { assert (P : is_prefix A (work_dir s w) = false).
    { destruct (is_prefix A (work_dir s w)) eqn:P; auto. exfalso. apply is_prefix_spec in P as (x & P).
      apply (f_equal (@List.length string)) in P. unfold A in P. rewrite !app_length in P. cbn in P. lia. }
    now rewrite K2, K1, P. }
  assert (P1 : is_prefix A Dp = false).
  { destruct (is_prefix A Dp) eqn:P; auto. exfalso. apply is_prefix_spec in P as (x & P). unfold A, Dp in P.
    rewrite <- app_assoc in P. apply app_inv_head in P. discriminate. }
  assert (P2 : is_prefix Dp A = false).
  { destruct (is_prefix Dp A) eqn:P; auto. exfalso. apply is_prefix_spec in P as (x & P). unfold A, Dp in P.
    rewrite <- app_assoc in P. apply app_inv_head in P. injection P as P _. now apply NA. }
  assert (KAz : kind_at A (w_fs w2) = Some KDir) by (rewrite <- (app_nil_r A); apply B2; left; auto).
  destruct (path_join_removable (sv_workDir s) dir PL) as (Z1 & Z2).
  assert (G : forall st, (st = SAbsent -> kind_at Dp (w_fs w2) = None) -> exists w3 : World,
     match st with SAbsent => aret tt | _ => os_RemoveAll env (path_Join [sv_workDir s; dir]) end s (tick (w_fs w2) w2) = (Ok tt, s, w3) /\
     w_cwd w3 = w_cwd w /\ kind_at Dp (w_fs w3) = None /\ kind_at A (w_fs w3) = Some KDir /\ kind_at (work_dir s w) (w_fs w3) = Some KDir).
  { intros st HS.
    assert (R : exists w3, os_RemoveAll env (path_Join [sv_workDir s; dir]) s (tick (w_fs w2) w2) = (Ok tt, s, w3) /\
     w_cwd w3 = w_cwd w /\ kind_at Dp (w_fs w3) = None /\ kind_at A (w_fs w3) = Some KDir /\ kind_at (work_dir s w) (w_fs w3) = Some KDir).
    { unfold os_RemoveAll. rewrite Z1, Z2. rewrite (LD (tick (w_fs w2) w2) C2).
      destruct (remove_all_some (work_dir s w) dir (w_fs w2) KB2) as (t3 & R3). fold Dp in R3.
      exists (tick t3 (tick (w_fs w2) w2)).
      assert (ND : Dp <> []) by (unfold Dp; destruct (work_dir s w); discriminate).
      split; [destruct Dp eqn:ED; [congruence|]; apply call_works; auto; now rewrite (LD (tick (w_fs w2) w2) C2)|].
      split; [exact C2|]. cbn [w_fs tick]. assert (RS := remove_all_spec _ _ _ ND R3).
      split; [now rewrite RS, is_prefix_refl|]. split; [now rewrite RS, P2|].
      rewrite RS. destruct (is_prefix Dp (work_dir s w)) eqn:P; auto. exfalso. apply is_prefix_spec in P as (x & P).
      apply (f_equal (@List.length string)) in P. unfold Dp in P. rewrite !app_length in P. cbn in P. lia. }
    destruct st; auto. exists (tick (w_fs w2) w2). split; [reflexivity|]. split; [exact C2|]. cbn [w_fs tick]. split; [now apply HS|]. auto. }
  match goal with |- context [match ?x with SThere => _ | SAbsent => _ | SError => _ end] => set (st := x) end.
  destruct (G st) as (w3 & R3 & C3 & N3 & A3 & B3).
  { unfold st, kind_at. destruct (get Dp (w_fs w2)); [discriminate|]. reflexivity. }
  unfold aret in R3. unfold abind. rewrite R3. unfold os_Rename. rewrite (LD w3 C3).
  destruct (rename_some (work_dir s w ++ [".astra"]) "azure" Dp (w_fs w3)) as (t4 & R4).
  - rewrite <- AE. congruence.
  - rewrite <- AE. exact P1.
  - exact N3.
  - exists (work_dir s w), dir. auto.
  - rewrite <- AE in R4. exists (tick t4 w3). apply call_works; auto. now rewrite (LA w3 C3).
Qed.
