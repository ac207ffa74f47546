(** Configuration and options: C49, C50. *)
From Coq Require Import List String Ascii Bool ZArith Arith Lia.
From Verif Require Import BaseStr BaseMap M_Types M_Collect M_OpenAPI M_Parse M_Clean M_FS M_Service M_Options S_Options P_Options.
Import ListNotations.
Local Open Scope string_scope.

(** C49: after any calls on any builders, building fails exactly when the last port set is none; otherwise it gives the last
    values set, with a host and a base path. *)
Theorem C49_built :
  forall m cs b m' r,
    b = List.length m -> doCall (CBuild b) (doCalls (CNew :: cs) m) = (m', r) ->
    let l := settings b cs in
    (r = None <-> last (values sets_port l) 0%Z = 0%Z) /\
    (r <> None -> r = Some b /\ described l (deref b m') /\ c_host (deref b m') <> "" /\ c_basePath (deref b m') <> "").
Proof.
  intros m cs b m' r -> E l. assert (B := builder_cell cs m). set (b := List.length m) in *. fold l in B.
  assert (L : b < List.length (doCalls (CNew :: cs) m)).
  { assert (X := doCalls_length cs (m ++ [zeroConfig])). rewrite app_length in X. cbn in X |- *. unfold doCalls in X. unfold b. lia. }
  set (m1 := doCalls (CNew :: cs) m) in *. cbn [doCall] in E.
  destruct (validate_spec (deref b m1)) as ((V1 & V2 & V3 & V4 & V5 & V6 & V7 & V8 & V9) & VF & VB).
  destruct (Validate (deref b m1)) as [c' f]. cbn [fst snd] in *. injection E as <- <-.
  destruct B as (B1 & B2 & B3 & B4 & B5 & B6 & B7 & B8 & B9).
  split; [rewrite <- B9, <- VF; now destruct f|]. intros N. destruct f; [congruence|]. split; auto.
  rewrite deref_set_same by auto. specialize (VB eq_refl).
  assert (ND : forall d v, d <> "" -> or_default d v <> "").
  { intros d v H. unfold or_default. destruct (String.eqb v "") eqn:X; auto. now apply String.eqb_neq. }
  split; [unfold described; rewrite V1, V2, V3, V4, V5, V6, V7, V8, VB; repeat split; auto|].
  rewrite V8, VB. split; apply ND; discriminate.
Qed.
Print Assumptions C49_built.

(** C49: validating again gives the same answer and changes nothing, whether it failed or not. *)
Theorem C49_stable : forall c, Validate (fst (Validate c)) = Validate c.
Proof. exact validate_again. Qed.
Print Assumptions C49_stable.

(** C49: a configuration is not changed by calls on other builders and configurations. *)
Theorem C49_others_partial :
  forall m cs p, p < List.length m -> (forall c, In c cs -> ~ call_on p c) -> deref p (doCalls cs m) = deref p m.
Proof. intros m cs p L H. apply doCalls_other; auto. now apply Forall_forall. Qed.
Print Assumptions C49_others_partial.

(** C49, refuted: what was built changes with the next call on the builder, for which it can even become invalid; building twice
    gives the same configuration, not two. *)
Theorem C49_refuted :
  exists cs b m r,
    r = snd (doCall (CBuild b) (doCalls cs [])) /\ m = fst (doCall (CBuild b) (doCalls cs [])) /\ r = Some b /\
    c_port (deref b m) = 8000%Z /\
    c_port (deref b (doCalls [CSet b (SetPort 0)] m)) = 0%Z /\
    snd (doCall (CBuild b) (doCalls [CSet b (SetPort 9000)] m)) = r.
Proof. exists [CNew; CSet 0 (SetPort 8000)], 0. eexists. eexists. repeat split. Qed.
Print Assumptions C49_refuted.

(** A history for C49_built with two builders, a failing build between, and values set again. *)
Example C49_nontrivial :
  let cs := [CSet 0 (SetTitle "a"); CNew; CSet 1 (SetPort 1); CBuild 0; CSet 0 (SetHost "h"); CSet 0 (SetPort 80); CSet 0 (SetTitle "b")] in
  let '(m', r) := doCall (CBuild 0) (doCalls (CNew :: cs) []) in
  settings 0 cs = [SetTitle "a"; SetHost "h"; SetPort 80; SetTitle "b"] /\
  r = Some 0 /\ deref 0 m' = mkConfig "b" "" "" ("", "", "") ("", "") false "h" "/" 80 /\
  snd (doCall (CBuild 0) (doCalls (CNew :: firstn 4 cs) [])) = None.
Proof. repeat split. Qed.

(** ** Options *)

(** C50: what any list of options gives: single things have the last value given or the default, lists all
    values in order, the cache is on when any option turns it on. *)
Theorem C50_result :
  forall l s lg, Forall a_map l -> NewWith l = (s, lg) ->
    sv_inputs s = values gives_input l /\ sv_outputs s = values gives_output l /\
    sv_config s = last (values gives_config l) None /\ sv_workDir s = last (values gives_workDir l) "" /\
    sv_cachePath s = last (values gives_cachePath l) "" /\ sv_cliMode s = last (values gives_mode l) CLIModeNone /\
    sv_cacheEnabled s = existsb enables_cache l /\
    sv_denyList s = values gives_deny l /\ sv_customFuncs s = values gives_func l /\
    (forall k, mlookup k (sv_customTypes s) = last (map Some (values (gives_type k) l)) None) /\
    lg_to lg = last (values gives_logger l) 0 /\ lg_level lg = last (values gives_level l) "info".
Proof.
  intros l s lg F E. destruct (new_outcome l F). rewrite E in *. cbn [fst snd] in *. repeat split; auto.
Qed.
Print Assumptions C50_result.

(** C50: two lists with the same options about each thing, in the same order for that thing, give the same service, all of it,
    and the same logger.  Missing: a logger and a level are taken to be about one thing (refuted below). *)
Theorem C50_any_order_partial :
  forall l l', Forall a_map l -> Forall a_map l' -> (forall t, filter (about t) l = filter (about t) l') -> NewWith l = NewWith l'.
Proof. intros l l' F F' H. eapply outcome_unique; eauto using new_outcome. Qed.
Print Assumptions C50_any_order_partial.

(** C50: two neighbours in a list that are about different things can change places. *)
Theorem C50_commute :
  forall l o o' l',
    Forall a_map (l ++ o :: o' :: l') -> (forall t, about t o = true -> about t o' = true -> False) ->
    NewWith (l ++ o :: o' :: l') = NewWith (l ++ o' :: o :: l').
Proof.
  intros l o o' l' F D. apply C50_any_order_partial; auto.
  - apply Forall_app in F as (F1 & F2). inversion F2 as [|? ? A1 F3]; subst. inversion F3 as [|? ? A2 F4]; subst.
    apply Forall_app. split; auto.
  - intros t. rewrite !filter_app. f_equal. cbn. destruct (about t o) eqn:E, (about t o') eqn:E'; auto. exfalso. eauto.
Qed.
Print Assumptions C50_commute.

(** C50, refuted: a level given before a logger is lost, one given after is kept. *)
Theorem C50_logger_refuted :
  exists l lv, snd (NewWith [OLogger l; OLogLevel lv]) <> snd (NewWith [OLogLevel lv; OLogger l]).
Proof. exists (mkLogger 1 "info"), "debug". discriminate. Qed.
Print Assumptions C50_logger_refuted.

(** C50_commute applies to options such as these, and the orders of a longer list to C50_any_order_partial. *)
Example C50_nontrivial :
  (forall t, about t OCLI = true -> about t (OCachePath "c.json") = true -> False) /\
  (forall t, about t (OTypeSingle "a.A" "string" "") = true -> about t (OTypes [("b.B", mkTF "integer" "")]) = true -> False) /\
  (let l := [OJSON "a"; OCLI; OWorkDir "x"; OOpenAPI "b"; OWorkDir "y"; OTypeSingle "k" "string" ""; OTypeSingle "k" "number" ""] in
   let l' := [OWorkDir "x"; OTypeSingle "k" "string" ""; OWorkDir "y"; OTypeSingle "k" "number" ""; OJSON "a"; OOpenAPI "b"; OCLI] in
   Forall a_map l /\ (forall t, filter (about t) l = filter (about t) l') /\
   sv_workDir (fst (NewWith l)) = "y" /\ map out_mode (sv_outputs (fst (NewWith l'))) = ["json"; "openapi"] /\
   mlookup "k" (sv_customTypes (fst (NewWith l'))) = Some (mkTF "number" "")).
Proof.
  split; [intros []; discriminate|]. split.
  { intros []; try discriminate. cbn [about gives_type]. destruct (String.eqb "a.A" key) eqn:E; [|discriminate].
    apply String.eqb_eq in E; subst. discriminate. }
  split; [repeat constructor|]. split; [|repeat split].
  intros []; reflexivity || (cbn [filter about gives_type some]; destruct (String.eqb "k" key); reflexivity).
Qed.
