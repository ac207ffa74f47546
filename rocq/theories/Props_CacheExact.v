(** Exactly which services come back from a cache: C38. *)
From Coq Require Import List String Ascii Bool ZArith Arith Lia.
From Verif Require Import BaseStr BaseMap M_Types M_Collect M_OpenAPI M_Parse M_Clean M_FS M_Service.
From Verif Require Import S_Names S_Example S_Service S_Cache S_Files P_FS P_Path P_Act P_Order P_Frame P_Cache P_Load Props_Cache.
Import ListNotations.
Local Open Scope string_scope.

Lemma back_string s : json_string s = s -> utf8 s.
Proof. apply json_string_iff. Qed.
Lemma back_list {A} (P : A -> Prop) (f : A -> A) l : (forall a, f a = a -> P a) -> map f l = l -> Forall P l.
Proof. intros H. induction l as [|a l IH]; cbn; intros E; constructor; injection E as E1 E2; auto. Qed.
Lemma back_enum e : json_enum e = e -> carried_enum e.
Proof. destruct e; cbn; intros H; auto; [injection H as H; now apply back_string|discriminate]. Qed.
Lemma back_field f : json_field f = f -> carried_field f.
Proof.
  induction f as [f IH] using Field_ind'.
  destruct f as [pkg typ name enum req emb sliceT arrayT arrayL mkp mkt mv sf bt vt doc].
  cbn [carried_field json_field f_structFields] in *. intros E. injection E as E1 E2 E3 EN E4 E5 E6 E7 E8 SF BT VT E9.
  split; [unfold texts; repeat constructor; now apply back_string|].
  split; [now apply (back_list _ _ _ back_enum)|]. split; [|split].
  - clear EN BT VT. induction sf as [|(k, f) sf IHs]; cbn [map fold_right fst snd] in *; auto.
    injection SF as A B C. inversion IH as [|? ? I1 I2]; subst. cbn in I1. split; [now apply back_string|]. auto.
  - refine (back_list _ _ _ _ BT). intros (k, (n, a, b)) X. unfold json_tag in X. cbn in *. injection X as X Y. split; now apply back_string.
  - refine (back_list _ _ _ _ VT). intros (k, v) X. cbn in *. injection X as X. now apply back_string.
Qed.
Lemma back_param p : json_param p = p -> carried_param p.
Proof. destruct p. unfold json_param. cbn. intros E. injection E as A B. split; cbn; [now apply back_string|now apply back_field]. Qed.
Lemma back_body p : json_body p = p -> carried_body p.
Proof. destruct p. unfold json_body. cbn. intros E. injection E as A B C. split; [|split]; cbn; (now apply back_string) || now apply back_field. Qed.
Lemma back_return p : json_return p = p -> carried_return p.
Proof. destruct p. unfold json_return. cbn. intros E. injection E as A B. split; cbn; [now apply back_string|now apply back_field]. Qed.
Lemma back_route r : json_route r = r -> carried_route r.
Proof.
  destruct r. unfold json_route. cbn. intros E. injection E as ? ? ? ? P1 P2 B R ? ? P3 P4.
  split; [unfold texts; repeat constructor; now apply back_string|]. cbn.
  repeat split; (now apply (back_list _ _ _ back_param)) || (now apply (back_list _ _ _ back_body)) || now apply (back_list _ _ _ back_return).
Qed.
Lemma back_config c : json_config c = c -> carried_config c.
Proof.
  destruct c as [t d v ((cn & cu) & ce) (ln & lu) sec h b p]. unfold json_config. cbn. intros E. injection E as ? ? ? ? ? ? ? ? ? ?.
  unfold carried_config, texts. cbn. repeat constructor; now apply back_string.
Qed.

(** C38, for a cache in JSON and any loader that looks in the same place: the cached parts come back as they were exactly when JSON carries
    them (text in UTF-8, no integers among the values of enumerations). *)
Theorem C38_loaded_exact :
  forall env s w s1 w1 s0,
    (forall n, e_fault env n = None) -> has_suffix ".json" (cache_name s) = true ->
    sv_cachePath s0 = sv_cachePath s -> sv_workDir s0 = sv_workDir s ->
    Cache env s w = (Ok tt, s1, w1) ->
    exists s2 w2, LoadCache env s0 w1 = (Ok tt, s2, w2) /\ (same_cached s s2 <-> carried s).
Proof.
  intros env s w s1 w1 s0 NF J C W E.
  destruct (load_after env s w s1 w1 s0 NF E C W) as (c & _ & B & w2 & L).
  rewrite <- name_json in J. rewrite (json_not_yaml _ J) in B, L. specialize (B eq_refl). subst c.
  unfold decodeCache in L. rewrite J in L. exists (loaded (json_service s) s0), w2. split; [exact L|]. split.
  - unfold same_cached, loaded. cbn -[json_service]. rewrite !map_map. cbn. rewrite !map_map. intros (I & O & CF & R & CO).
    split; [|split; [|split; [|split]]].
    + clear - I. induction (sv_inputs s) as [|i l IH]; constructor; injection I as I1 I2; auto. now apply back_string.
    + clear - O. induction (sv_outputs s) as [|o l IH]; constructor; cbn in O; injection O as O1 O2 O3; auto. split; [now apply back_string|].
      refine (back_list _ _ _ _ O2). intros (k, v) X. cbn in *. injection X as X Y. split; [now apply back_string|]. destruct v; auto. cbn in Y. injection Y as Y. now apply back_string.
    + destruct (sv_config s) as [cf|]; auto. cbn in CF. injection CF as CF. now apply back_config.
    + now apply (back_list _ _ _ back_route).
    + now apply (back_list _ _ _ back_field).
  - intros CA. destruct (carried_service s CA) as (A1 & A2 & A3 & A4 & A5). unfold same_cached, loaded. cbn -[json_service].
    rewrite A1, A2, A3, A4, A5, !map_map. repeat split.
Qed.
Print Assumptions C38_loaded_exact.
(** A service JSON carries and one with an integer in an enumeration, both cached under the hypotheses above. *)
Example C38_exact_nontrivial :
  carried ex_cached /\ ~ carried (ex_enum (EInt 3)) /\
  Forall (fun s => has_suffix ".json" (cache_name s) = true /\ fst (fst (Cache (ex_env no_fault) s ex_world)) = Ok tt) [ex_cached; ex_enum (EInt 3)].
Proof.
  split; [exact ex_carried|]. split.
  - intros (_ & _ & _ & _ & F). apply Forall_inv in F. cbn in F. destruct F as (_ & F & _). now apply Forall_inv in F.
  - repeat constructor; vm_compute; reflexivity.
Qed.
