(** Caching and loading: what is kept, what is at the cache path at every moment, rebinding. *)
From Coq Require Import List String Ascii Bool ZArith Arith Lia.
From Verif Require Import BaseStr BaseMap M_Types M_Collect M_OpenAPI M_Parse M_Clean M_FS M_Service.
From Verif Require Import S_Service S_Cache S_Files P_FS P_Path P_Act P_Order P_Frame P_Cache.
Import ListNotations.
Local Open Scope string_scope.

(** ** Data that JSON carries comes back as it was *)

Lemma id_string s : utf8 s -> json_string s = s.
Proof. apply json_string_iff. Qed.

Lemma map_id_in {A} (f : A -> A) l : Forall (fun a => f a = a) l -> map f l = l.
Proof. induction 1; cbn; congruence. Qed.
Lemma Forall_id {A} (P : A -> Prop) (f : A -> A) l : (forall a, P a -> f a = a) -> Forall P l -> map f l = l.
Proof. intros H F. apply map_id_in. eapply Forall_impl; eauto. Qed.

Lemma id_enum e : carried_enum e -> json_enum e = e.
Proof. destruct e; cbn; intros H; auto; [now rewrite id_string|contradiction]. Qed.

Lemma id_field f : carried_field f -> json_field f = f.
Proof.
  induction f as [f IH] using Field_ind'.
  destruct f as [pkg typ name enum req emb sliceT arrayT arrayL mkp mkt mv sf bt vt doc].
  cbn [carried_field json_field f_structFields] in *. intros (TX & EN & SF & BT & VT).
  unfold texts in TX. repeat match goal with H : Forall _ (_ :: _) |- _ => inversion H; subst; clear H end.
  rewrite !id_string by auto. rewrite (Forall_id _ _ enum id_enum EN). f_equal.
  - clear EN BT VT. induction sf as [|(k, f) sf IHs]; auto. cbn [map fold_right fst snd] in *.
    destruct SF as (A & B & C). inversion IH; subst. cbn in *. rewrite id_string, IHs by auto. f_equal. f_equal. auto.
  - refine (Forall_id _ _ bt _ BT). intros (k, t) (A & B). unfold json_tag. cbn in *. rewrite !id_string by auto. now destruct t.
  - refine (Forall_id _ _ vt _ VT). intros (k, v) A. cbn in *. now rewrite id_string.
Qed.

Lemma id_param p : carried_param p -> json_param p = p.
Proof. intros (A & B). destruct p. unfold json_param. cbn in *. now rewrite id_string, id_field. Qed.
Lemma id_body p : carried_body p -> json_body p = p.
Proof. intros (A & B & C). destruct p. unfold json_body. cbn in *. now rewrite !id_string, id_field. Qed.
Lemma id_return p : carried_return p -> json_return p = p.
Proof. intros (A & B). destruct p. unfold json_return. cbn in *. now rewrite id_string, id_field. Qed.
Lemma id_route r : carried_route r -> json_route r = r.
Proof.
  intros (TX & A & B & C & D & E & F). destruct r. unfold json_route. cbn in *.
  unfold texts in TX. repeat match goal with H : Forall _ (_ :: _) |- _ => inversion H; subst; clear H end.
  rewrite !id_string by auto.
  now rewrite !(Forall_id _ _ _ id_param), (Forall_id _ _ _ id_body), (Forall_id _ _ _ id_return) by auto.
Qed.
Lemma id_config c : carried_config c -> json_config c = c.
Proof.
  intros TX. destruct c as [t d v ((cn & cu) & ce) (ln & lu) sec h b p]. unfold carried_config, texts in TX. cbn in TX.
  repeat match goal with H : Forall _ (_ :: _) |- _ => inversion H; subst; clear H end.
  unfold json_config. cbn. now rewrite !id_string by auto.
Qed.

Lemma map_ext_Forall {A B} (f g : A -> B) l : Forall (fun a => f a = g a) l -> map f l = map g l.
Proof. induction 1; cbn; congruence. Qed.

Lemma carried_service s :
  carried s ->
  let c := json_service s in
  ca_inputs c = map in_mode (sv_inputs s) /\ ca_outputs c = map (fun o => (out_mode o, out_config o)) (sv_outputs s) /\
  ca_config c = sv_config s /\ ca_routes c = sv_routes s /\ ca_components c = sv_components s.
Proof.
  intros (A & B & C & D & E) c. unfold c, json_service. cbn.
  split; [apply map_ext_Forall; eapply Forall_impl; [|exact A]; intros i; apply id_string|].
  split.
  { apply map_ext_Forall. eapply Forall_impl; [|exact B]. intros o (X & Y). rewrite id_string by auto. f_equal.
    refine (Forall_id _ _ _ _ Y). intros (k, v) (Z1 & Z2). cbn in *. rewrite id_string by auto. f_equal.
    destruct v; cbn; auto. now rewrite id_string. }
  split; [destruct (sv_config s) as [cf|]; cbn; auto; now rewrite id_config|].
  split; [exact (Forall_id _ _ _ id_route D)|exact (Forall_id _ _ _ id_field E)].
Qed.

(** ** The suffix of the path *)

Lemma suffix_app a b : has_suffix b (a ++ b) = true.
Proof. apply has_suffix_spec. eauto. Qed.
Lemma suffix_last p x c : has_suffix (x ++ str1 c) p = true -> exists u, p = u ++ str1 c.
Proof. intros H. apply has_suffix_spec in H as (u & ->). exists (u ++ x). now rewrite append_assoc. Qed.
Lemma json_not_yaml p : has_suffix ".json" p = true -> is_yaml p = false.
Proof.
  intros H. apply (suffix_last p ".jso" "n") in H as (u & ->). unfold is_yaml. apply orb_false_iff. split.
  - destruct (has_suffix ".yaml" _) eqn:E; auto. apply (suffix_last _ ".yam" "l") in E as (v & E). apply snoc_inj in E as (_ & E). discriminate.
  - destruct (has_suffix ".yml" _) eqn:E; auto. apply (suffix_last _ ".ym" "l") in E as (v & E). apply snoc_inj in E as (_ & E). discriminate.
Qed.
(** The name decides, whether the path is the default or not. *)
Lemma cachePath_suffix s x : has_suffix ("." ++ x) (cachePath s) = has_suffix ("." ++ x) (cache_name s) \/ sv_cachePath s = "".
Proof. unfold cachePath, cache_name. destruct (String.eqb (sv_cachePath s) "") eqn:E; [right; now apply String.eqb_eq|now left]. Qed.
Lemma plain_cache : plain_name "cache.json".
Proof. repeat split; discriminate. Qed.
Lemma default_json s : sv_cachePath s = "" -> has_suffix ".json" (cachePath s) = true.
Proof.
  intros E. unfold cachePath. rewrite E. cbn [negb String.eqb]. destruct (path_join_last (getAstraDirPath s) "cache.json" plain_cache) as (a & ->).
  apply has_suffix_spec. exists (a ++ "cache"). now rewrite append_assoc.
Qed.
Lemma name_json s : has_suffix ".json" (cachePath s) = has_suffix ".json" (cache_name s).
Proof.
  destruct (cachePath_suffix s "json") as [H|H]; auto. rewrite default_json by auto. unfold cache_name. rewrite H. reflexivity.
Qed.
Lemma name_yaml s : is_yaml (cachePath s) = is_yaml (cache_name s).
Proof.
  destruct (String.eqb (sv_cachePath s) "") eqn:E.
  - apply String.eqb_eq in E. rewrite json_not_yaml by now apply default_json. unfold cache_name. now rewrite E.
  - unfold cachePath, cache_name. now rewrite E.
Qed.

(** ** Running the cache *)

Lemma cachePath_place s w : locate (w_cwd w) (cachePath s) = cache_place s w.
Proof. unfold cachePath, cache_place. destruct (String.eqb (sv_cachePath s) ""); reflexivity. Qed.

Definition same_service (s : Service) (w : World) (s' : Service) (w' : World) : Prop := s' = s /\ w_cwd w' = w_cwd w.
Lemma cache_same_service env s w r s' w' : Cache env s w = (r, s', w') -> s' = s /\ w_cwd w' = w_cwd w.
Proof.
  intros E. assert (P : preserves same_service (Cache env) s w).
  { apply p_cache; unfold same_service; intuition congruence. }
  unfold preserves, after_service, after_world in P. now rewrite E in P.
Qed.

Lemma same_service_of (m : act unit) s w r s' w' :
  preserves same_service m s w -> m s w = (r, s', w') -> s' = s /\ w_cwd w' = w_cwd w.
Proof. intros P E. unfold preserves, after_service, after_world in P. now rewrite E in P. Qed.
Ltac same_svc := unfold same_service; intuition congruence.

(** What an Ok of caching means. *)
Lemma cache_ok env s w s' w' :
  Cache env s w = (Ok tt, s', w') ->
  exists c, (is_yaml (cachePath s) = true -> yaml_service s = Ok c) /\
            (is_yaml (cachePath s) = false -> c = json_service s) /\
            kind_at (cache_place s w) (w_fs w') = Some (KFile (CCache (is_yaml (cachePath s)) c)).
Proof.
  intros E. unfold Cache in E. unfold abind at 1, service in E.
  apply bind_ok in E as (st & s1 & w1 & E1 & E). apply stat_same in E1 as (-> & ->).
  apply bind_ok in E as (u & s2 & w2 & E2 & E).
  assert (s2 = s /\ w_cwd w2 = w_cwd w) as (-> & C2).
  { change (w_cwd w) with (w_cwd (tick (w_fs w) w)). refine (same_service_of _ _ _ _ _ _ _ E2).
    destruct st; try (apply preserves_ret; same_svc). unfold ClearCache.
    apply preserves_service. apply preserves_bind; try same_svc; [apply p_stat; same_svc|]. intros a s3 w3 _.
    destruct a; try (apply preserves_outcome; same_svc). apply p_removeall; same_svc. }
  apply bind_ok in E as (u3 & s3 & w3 & E3 & E).
  assert (s3 = s /\ w_cwd w3 = w_cwd w2) as (-> & C3).
  { refine (same_service_of _ _ _ _ _ _ _ E3). apply p_call_tree; same_svc. }
  apply bind_ok in E as (c & s4 & w4 & E4 & E).
  assert (s4 = s /\ w4 = w3) as (-> & ->) by (destruct (is_yaml _); unfold aoutcome, aret in E4; split; congruence).
  exists c. split; [intros Y; rewrite Y in E4; unfold aoutcome in E4; congruence|].
  split; [intros Y; rewrite Y in E4; unfold aret in E4; congruence|].
  unfold file_Write in E. rewrite C3, C2, cachePath_place in E. destruct (e_fault env (w_clock w3)); [discriminate|].
  destruct (write _ _ _) as [t|] eqn:W; [|discriminate]. injection E as _ <-. cbn [w_fs tick].
  apply write_spec in W as (_ & S). now rewrite S, is_prefix_refl.
Qed.

Lemma load_custom env p s w c :
  (forall n, e_fault env n = None) -> kind_at (locate (w_cwd w) p) (w_fs w) = Some (KFile c) ->
  LoadCacheFromCustomPath env p s w =
  match decodeCache env p c with
  | Ok d => (Ok tt, loaded d s, tick (w_fs w) w)
  | Err e => (Err e, s, tick (w_fs w) w)
  | Panic => (Panic, s, tick (w_fs w) w)
  | OutOfFuel => (OutOfFuel, s, tick (w_fs w) w)
  end.
Proof.
  intros NF K. unfold LoadCacheFromCustomPath, abind, os_ReadFile. rewrite NF.
  unfold kind_at in K. destruct (get _ (w_fs w)) as [[c'|]|] eqn:G; try discriminate. injection K as ->.
  unfold aoutcome, modify. now destruct (decodeCache env p c).
Qed.

Lemma load_default env s w c :
  (forall n, e_fault env n = None) -> kind_at (cache_place s w) (w_fs w) = Some (KFile c) ->
  LoadCache env s w = LoadCacheFromCustomPath env (cachePath s) s (tick (w_fs w) w).
Proof.
  intros NF K. unfold LoadCache, abind, service, os_Stat. rewrite NF, cachePath_place.
  unfold kind_at in K. destruct (get _ (w_fs w)) as [[c'|]|] eqn:G; try discriminate. reflexivity.
Qed.

(** ** Every moment of caching *)

Definition cache_states (s : Service) (t0 : tree content) (p : list string) (faulty : content -> Prop) (t : tree content) : Prop :=
  (forall q, ~ inside p q -> kind_at q t = kind_at q t0) /\
  (kind_at p t = kind_at p t0 \/ kind_at p t = None \/ kind_at p t = Some (KFile (CBytes "")) \/
   (exists c, (if is_yaml (cache_name s) then yaml_service s = Ok c else c = json_service s) /\
              kind_at p t = Some (KFile (CCache (is_yaml (cache_name s)) c))) \/
   exists g, faulty g /\ kind_at p t = Some (KFile g)).

Lemma cache_moments env s w r s' w' :
  cache_place s w <> [] -> Cache env s w = (r, s', w') ->
  forall t, came_up w w' t -> cache_states s (w_fs w) (cache_place s w) (fun g => exists n, e_fault env n = Some g) t.
Proof.
  intros NR E. set (F := fun g => exists n, e_fault env n = Some g). set (p := cache_place s w). assert (NR' : p <> []) by exact NR.
  set (Inv := cache_states s (w_fs w) p F).
  assert (I0 : Inv (w_fs w)) by (split; auto).
  assert (NP : forall q (b : bool), ~ inside p q -> is_prefix p q = true -> False).
  { intros q _ N P. apply N. apply is_prefix_spec in P as (x & ->). now exists x. }
  assert (M : preserves (moments (w_cwd w) (fun x => x = s) Inv) (Cache env) s w).
  { assert (L : locate (w_cwd w) (cachePath s) = p) by apply cachePath_place.
    assert (RM : forall s1 w1, preserves (moments (w_cwd w) (fun x => x = s) Inv) (os_RemoveAll env (cachePath s)) s1 w1).
    { intros s1 w1. apply m_removeall; rewrite L; [intros X; destruct (NR X)|]. intros _ t t' (A & B) C. split.
      - intros q N. rewrite (remove_all_spec _ _ _ NR' C). destruct (is_prefix p q) eqn:P; [destruct (NP q true N P)|exact (A q N)].
      - right. left. rewrite (remove_all_spec _ _ _ NR' C). now rewrite is_prefix_refl. }
    unfold Cache, ClearCache. mstep. mstep; [mstep|]. mstep.
    { mstep; try mstep. apply m_intro. intros _ -> _. mstep; [mstep|]. mstep; try mstep. apply RM. }
    mstep.
    { apply m_call_tree. rewrite L. intros t' (A & B) C. apply create_spec in C as (_ & S). split.
      - intros q N. rewrite S. destruct (is_prefix p q) eqn:P; [destruct (NP q true N P)|exact (A q N)].
      - right. right. left. now rewrite S, is_prefix_refl. }
    mstep; [destruct (is_yaml _); mstep|].
    apply m_write. rewrite L. intros g t t' G (A & B) C. apply write_spec in C as (_ & S). split.
    - intros q N. rewrite S. destruct (is_prefix p q) eqn:P; [destruct (NP q true N P)|exact (A q N)].
    - right. right. right. destruct G as [->|G].
      + left. match goal with X : (if is_yaml (cachePath s) then aoutcome _ else _) _ _ = _ |- _ => rename X into Y end.
        rewrite name_yaml in *. eexists. split; [|rewrite S, is_prefix_refl; reflexivity].
        destruct (is_yaml (cache_name s)); unfold aoutcome, aret in Y; congruence.
      + right. exists g. split; auto. now rewrite S, is_prefix_refl. }
  unfold preserves, after_service, after_world in M. rewrite E in M.
  destruct (M eq_refl eq_refl I0) as (_ & _ & I1 & new & P & FA).
  intros t [->|(new' & P' & IN)]; [exact I1|]. cbn [snd] in P. rewrite P in P'. apply app_inv_tail in P' as <-.
  rewrite Forall_forall in FA. auto.
Qed.

(** ** Loading changes nothing but the service, and that only when it succeeds *)

Lemma load_custom_frame env p s w r s' w' :
  LoadCacheFromCustomPath env p s w = (r, s', w') ->
  w_fs w' = w_fs w /\
  ((r <> Ok tt /\ s' = s) \/ (r = Ok tt /\ exists d, s' = loaded d s)).
Proof.
  unfold LoadCacheFromCustomPath, abind, os_ReadFile, aoutcome, modify.
  destruct (e_fault env (w_clock w)); [injection 1 as <- <- <-; split; auto; left; split; auto; discriminate|].
  destruct (get _ (w_fs w)) as [[c|]|]; try (injection 1 as <- <- <-; split; auto; left; split; auto; discriminate).
  destruct (decodeCache env p c); injection 1 as <- <- <-; split; auto; try (left; split; auto; discriminate).
  right. eauto.
Qed.
Lemma load_frame env s w r s' w' :
  LoadCache env s w = (r, s', w') ->
  w_fs w' = w_fs w /\
  ((r <> Ok tt /\ s' = s) \/ (r = Ok tt /\ exists d, s' = loaded d s)).
Proof.
  unfold LoadCache, abind, service, os_Stat, aoutcome.
  destruct (e_fault env (w_clock w)); [injection 1 as <- <- <-; split; auto; left; split; auto; discriminate|].
  destruct (match get _ (w_fs w) with Some _ => _ | None => _ end);
    try (injection 1 as <- <- <-; split; auto; left; split; auto; discriminate).
  intros H. apply load_custom_frame in H. exact H.
Qed.
Lemma loaded_uncached d s : same_uncached s (loaded d s) /\ sv_customTypes (loaded d s) = sv_customTypes s /\ sv_memo (loaded d s) = sv_memo s.
Proof. repeat split. Qed.

(** A loader that looks for its cache at the same place. *)
Lemma same_path s s0 : sv_cachePath s0 = sv_cachePath s -> sv_workDir s0 = sv_workDir s -> cachePath s0 = cachePath s.
Proof. unfold cachePath, getAstraDirPath. now intros -> ->. Qed.

Lemma load_after env s w s1 w1 s0 :
  (forall n, e_fault env n = None) -> Cache env s w = (Ok tt, s1, w1) ->
  sv_cachePath s0 = sv_cachePath s -> sv_workDir s0 = sv_workDir s ->
  exists c, (is_yaml (cachePath s) = true -> yaml_service s = Ok c) /\
            (is_yaml (cachePath s) = false -> c = json_service s) /\
    exists w2, LoadCache env s0 w1 =
      match decodeCache env (cachePath s) (CCache (is_yaml (cachePath s)) c) with
      | Ok d => (Ok tt, loaded d s0, w2)
      | Err e => (Err e, s0, w2)
      | Panic => (Panic, s0, w2)
      | OutOfFuel => (OutOfFuel, s0, w2)
      end.
Proof.
  intros NF E C W. destruct (cache_ok env s w s1 w1 E) as (c & A & B & K). exists c. split; auto. split; auto.
  destruct (cache_same_service env s w _ _ _ E) as (_ & CW).
  assert (P : cache_place s0 w1 = cache_place s w) by (unfold cache_place; now rewrite C, W, CW).
  assert (K0 : kind_at (cache_place s0 w1) (w_fs w1) = Some (KFile (CCache (is_yaml (cachePath s)) c))) by (rewrite P; exact K).
  eexists. rewrite (load_default env s0 w1 _ NF K0).
  rewrite (load_custom env (cachePath s0) s0 (tick (w_fs w1) w1) (CCache (is_yaml (cachePath s)) c) NF).
  - rewrite (same_path s s0 C W). reflexivity.
  - cbn [w_cwd w_fs tick]. rewrite cachePath_place. exact K0.
Qed.

(** ** Rebinding *)

Lemma cons_app {A} (l : list A) a r : (l ++ a :: r = (l ++ [a]) ++ r)%list.
Proof. now rewrite <- app_assoc. Qed.

Lemma rebindInputs_spec l s s' :
  rebindInputs l s = Ok s' ->
  exists is', Forall2 bound_input l is' /\ s' = with_inputs (sv_inputs s ++ is') s.
Proof.
  revert s. induction l as [|i l IH]; intros s; cbn [rebindInputs].
  - injection 1 as <-. exists []. split; [constructor|]. rewrite app_nil_r. now destruct s.
  - destruct (String.eqb (in_mode i) InputModeGin) eqn:M; [|discriminate]. intros H. apply IH in H as (is' & F & ->).
    exists (mkInput InputModeGin (CrGin None) PaGin :: is'). split.
    + constructor; auto. apply String.eqb_eq in M. repeat split; auto.
    + rewrite (cons_app (sv_inputs s)). reflexivity.
Qed.
Lemma rebindInputs_ok l s : Forall (fun i => in_mode i = "gin") l -> exists s', rebindInputs l s = Ok s'.
Proof.
  intros F. revert s. induction F as [|i l H F IH]; intros s; cbn [rebindInputs]; eauto. rewrite H. apply IH.
Qed.

Lemma config_path o path : mlookup "filePath" (out_config o) = Some (VStr path) -> config_string IOConfigurationKeyFilePath o = (path, true).
Proof. unfold config_string, IOConfigurationKeyFilePath. now intros ->. Qed.

Lemma rebindOutputs_spec l s s' :
  rebindOutputs l s = Ok s' ->
  exists os', Forall2 bound_output l os' /\ s' = with_outputs (sv_outputs s ++ os') s.
Proof.
  revert s. induction l as [|o l IH]; intros s; cbn [rebindOutputs].
  - injection 1 as <-. exists []. split; [constructor|]. rewrite app_nil_r. now destruct s.
  - unfold config_string, IOConfigurationKeyFilePath, IOConfigurationKeyDirectoryPath.
    destruct (String.eqb (out_mode o) OutputModeAzureFunctions) eqn:M0.
    { destruct (mlookup "directoryPath" (out_config o)) as [[v|]|]; discriminate. }
    destruct (String.eqb (out_mode o) OutputModeJSON) eqn:M1.
    { destruct (mlookup "filePath" (out_config o)) as [[v|]|] eqn:G; try discriminate.
      destruct (String.eqb v "") eqn:V; try discriminate. cbn [negb orb]. intros H. apply IH in H as (os' & F & ->).
      apply String.eqb_eq in M1. apply String.eqb_neq in V.
      exists (mkOutput OutputModeJSON (GeJSON v) [("filePath", VStr v)] :: os'). split.
      + constructor; auto. exists v. repeat split; auto.
      + rewrite (cons_app (sv_outputs s)). reflexivity. }
    destruct (String.eqb (out_mode o) OutputModeOpenAPI) eqn:M2; [|discriminate].
    destruct (mlookup "filePath" (out_config o)) as [[v|]|] eqn:G; try discriminate.
    destruct (String.eqb v "") eqn:V; try discriminate. cbn [negb orb]. intros H. apply IH in H as (os' & F & ->).
    apply String.eqb_eq in M2. apply String.eqb_neq in V.
    exists (mkOutput OutputModeOpenAPI (GeOpenAPI v) [("filePath", VStr v)] :: os'). split.
    + constructor; auto. exists v. repeat split; auto.
    + rewrite (cons_app (sv_outputs s)). reflexivity.
Qed.
Lemma rebindOutputs_ok l s :
  Forall (fun o => exists p, file_output o "json" p \/ file_output o "openapi" p) l -> exists s', rebindOutputs l s = Ok s'.
Proof.
  intros F. revert s. induction F as [|o l (p & H) F IH]; intros s; cbn [rebindOutputs]; eauto.
  destruct H as [(M & N & C)|(M & N & C)]; rewrite M, (config_path o p C); apply String.eqb_neq in N; cbn; rewrite N; apply IH.
Qed.

Lemma rebindOptions_spec s s' :
  rebindOptions s = Ok s' ->
  Forall2 bound_input (sv_inputs s) (sv_inputs s') /\ Forall2 bound_output (sv_outputs s) (sv_outputs s') /\ same_but_io s s'.
Proof.
  unfold rebindOptions. destruct (rebindInputs (sv_inputs s) (with_inputs [] s)) as [s1|e| |] eqn:E1; try discriminate.
  cbn [bind]. intros E2. apply rebindInputs_spec in E1 as (is' & F1 & ->). apply rebindOutputs_spec in E2 as (os' & F2 & ->).
  split; [exact F1|]. split; [exact F2|]. repeat split.
Qed.
