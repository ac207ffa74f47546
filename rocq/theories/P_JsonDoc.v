(** The JSON value of a document. *)
From Coq Require Import List String Ascii Bool ZArith NArith Arith Lia DecimalString DecimalFacts DecimalN DecimalZ DecimalPos.
From Verif Require Import BaseStr BaseMap M_Types M_OpenAPI M_Service M_Json S_Cache S_Json P_Json.
Import ListNotations.
Local Open Scope string_scope.

(** ** Integers *)
Lemma uint_digits d : d <> Decimal.Nil -> digits (NilEmpty.string_of_uint d).
Proof.
  assert (G : forall d c, digit c -> digits (NilEmpty.string_of_uint d) \/ d = Decimal.Nil -> digits (String c (NilEmpty.string_of_uint d))).
  { intros x c Hc [H| ->]; [now apply dg_more|now apply dg_one]. }
  induction d; intros N; [now elim N|..]; cbn; (apply G; [unfold digit; cbn; lia|]);
    (destruct d; [right; reflexivity|left; apply IHd; discriminate..]).
Qed.
Lemma uint_text d : d <> Decimal.Nil -> Decimal.unorm d = d -> int_text (NilEmpty.string_of_uint d).
Proof.
  intros N U.
  assert (G : forall c x, 49 <= ord c <= 57 -> int_text (String c (NilEmpty.string_of_uint x))).
  { intros c x Hc. destruct (Decimal.uint_eq_dec x Decimal.Nil) as [->|Nx]; [now apply int_one|]. apply int_more; auto. now apply uint_digits. }
  destruct d; [now elim N| |cbn; apply G; cbn; lia..].
  destruct (Decimal.uint_eq_dec (Decimal.nzhead d) Decimal.Nil) as [E|E].
  - apply unorm_0 in E. rewrite <- unorm_D0, U in E. injection E as ->. constructor.
  - rewrite unorm_nzhead in U by exact E. now apply nzhead_nonzero in U.
Qed.
Lemma positive_text p : int_text (NilEmpty.string_of_uint (Pos.to_uint p)).
Proof.
  apply uint_text; [apply DecimalPos.Unsigned.to_uint_nonnil|].
  change (Pos.to_uint p) with (N.to_uint (Npos p)). rewrite <- DecimalN.Unsigned.to_of. now rewrite DecimalN.Unsigned.of_to.
Qed.
Lemma int_number m t : In m [""; "-"] -> int_text t -> number (m ++ t).
Proof. intros Im Ht. exists m, t, "", "". rewrite !append_nil_r. repeat split; auto; constructor. Qed.
Lemma itoa_number z : number (itoa z).
Proof.
  unfold itoa. destruct z as [|p|p]; cbn [Z.to_int NilEmpty.string_of_int].
  - apply (int_number "" "0"); [cbn; tauto|constructor].
  - apply (int_number "" _); [cbn; tauto|apply positive_text].
  - apply (int_number "-" _); [cbn; tauto|apply positive_text].
Qed.
Lemma itoa_integer z : integer (itoa z) z.
Proof.
  exists (Z.to_int z). split; [|apply DecimalZ.of_to]. unfold itoa. apply NilEmpty.isi.
Qed.

(** ** Members *)
Lemma absent_nil k : absent [] k.
Proof. intros []. Qed.
Lemma absent_app a b k : absent a k -> absent b k -> absent (a ++ b)%list k.
Proof. unfold absent. rewrite map_app, in_app_iff. tauto. Qed.
Lemma absent_cons j v a k : j <> k -> absent a k -> absent ((j, v) :: a) k.
Proof. unfold absent. cbn. tauto. Qed.
Lemma absent_text j s k : j <> k -> absent (text_member j s) k.
Proof. unfold text_member. destruct (String.eqb s ""); auto using absent_nil, absent_cons. Qed.
Lemma absent_flag j b k : j <> k -> absent (flag_member j b) k.
Proof. destruct b; cbn; auto using absent_nil, absent_cons. Qed.
Lemma absent_int j z k : j <> k -> absent (int_member j z) k.
Proof. unfold int_member. destruct (Z.eqb z 0); auto using absent_nil, absent_cons. Qed.
Lemma absent_list j l k : j <> k -> absent (list_member j l) k.
Proof. destruct l; cbn; auto using absent_nil, absent_cons. Qed.
Lemma absent_map j l k : j <> k -> absent (map_member j l) k.
Proof. destruct l; cbn; auto using absent_nil, absent_cons. Qed.
Lemma absent_opt j l k : j <> k -> absent (opt_member j l) k.
Proof. destruct l; cbn; auto using absent_nil, absent_cons. Qed.
Lemma absent_operation float j l k : j <> k -> absent (operation_member float j l) k.
Proof. apply absent_opt. Qed.
Ltac gone := repeat first [apply absent_app | apply absent_cons; [discriminate|] | apply absent_text; discriminate | apply absent_flag; discriminate
  | apply absent_int; discriminate | apply absent_list; discriminate | apply absent_map; discriminate | apply absent_opt; discriminate
  | apply absent_operation; discriminate | apply absent_nil].
(** The part of an object that says something, and the others. *)
Lemma text_self k s : says_text (text_member k s) k s.
Proof. unfold text_member. destruct (String.eqb_spec s "") as [->|N]; [right|left]; [split; auto using absent_nil|left; reflexivity]. Qed.
Lemma flag_self k b : says_flag (flag_member k b) k b.
Proof. destruct b; [left; left; reflexivity|right; split; auto using absent_nil]. Qed.
Lemma int_self k z : says_int (int_member k z) k z.
Proof.
  unfold int_member. destruct (Z.eqb_spec z 0) as [->|N]; [right; split; auto using absent_nil|left].
  exists (itoa z). split; [left; reflexivity|apply itoa_integer].
Qed.
Lemma list_self {A} (R : jval -> A -> Prop) k f l : Forall (fun a => R (f a) a) l -> says_list R (list_member k (map f l)) k l.
Proof.
  intros H. destruct l as [|a l]; [right; split; auto using absent_nil|left]. exists (map f (a :: l)). split; [left; reflexivity|].
  induction H; cbn; constructor; auto.
Qed.
Lemma map_self {A} (R : jval -> A -> Prop) k f l : Forall (fun ka => R (f (snd ka)) (snd ka)) l ->
  says_map R (map_member k (map (fun ka => (fst ka, f (snd ka))) l)) k l.
Proof.
  intros H. destruct l as [|a l]; [right; split; auto using absent_nil|left]. eexists. split; [left; reflexivity|].
  induction H; cbn; constructor; auto. split; auto.
Qed.
Lemma opt_self {A} (R : jval -> A -> Prop) k f (x : option A) : (forall a, x = Some a -> R (f a) a) ->
  says_opt R (opt_member k (match x with None => None | Some a => Some (f a) end)) k x.
Proof.
  intros H. destruct x as [a|]; [left|right; split; auto using absent_nil]. exists (f a), a. split; [left; reflexivity|]. auto.
Qed.
Definition same (k : string) (o m : obj) : Prop := forall v, has o k v <-> has m k v.
Lemma absent_has o k : absent o k <-> forall v, ~ has o k v.
Proof.
  unfold absent, has. split.
  - intros N v I. apply N. now apply (in_map fst) in I.
  - intros N I. apply in_map_iff in I as ((j & v) & <- & I). now elim (N v).
Qed.
Lemma same_absent k o m : same k o m -> absent m k -> absent o k.
Proof. rewrite !absent_has. intros S N v H. apply S in H. now apply N in H. Qed.
Lemma same_refl k o : same k o o.
Proof. intros v. tauto. Qed.
Lemma same_skip k a b m : absent a k -> same k b m -> same k (a ++ b)%list m.
Proof. rewrite absent_has. intros N S v. unfold has in *. rewrite in_app_iff, <- (S v). specialize (N v). tauto. Qed.
Lemma same_hit k a b : absent b k -> same k (a ++ b)%list a.
Proof. rewrite absent_has. intros N v. unfold has in *. rewrite in_app_iff. specialize (N v). tauto. Qed.
Lemma same_cons k j v b m : j <> k -> same k b m -> same k ((j, v) :: b) m.
Proof. intros N S v'. unfold has in *. cbn. rewrite <- (S v'). split; [intros [E|E]; [congruence|auto]|auto]. Qed.
Lemma text_ext k o m s : same k o m -> says_text m k s -> says_text o k s.
Proof. intros S [H|(H & E)]; [left; now apply S|right; split; auto; eapply same_absent; eauto]. Qed.
Lemma flag_ext k o m s : same k o m -> says_flag m k s -> says_flag o k s.
Proof. intros S [H|(H & E)]; [left; now apply S|right; split; auto; eapply same_absent; eauto]. Qed.
Lemma int_ext k o m s : same k o m -> says_int m k s -> says_int o k s.
Proof. intros S [(t & H & X)|(H & E)]; [left; exists t; split; auto; now apply S|right; split; auto; eapply same_absent; eauto]. Qed.
Lemma list_ext {A} (R : jval -> A -> Prop) k o m s : same k o m -> says_list R m k s -> says_list R o k s.
Proof. intros S [(t & H & X)|(H & E)]; [left; exists t; split; auto; now apply S|right; split; auto; eapply same_absent; eauto]. Qed.
Lemma map_ext_at {A} (R : jval -> A -> Prop) k o m s : same k o m -> says_map R m k s -> says_map R o k s.
Proof. intros S [(t & H & X)|(H & E)]; [left; exists t; split; auto; now apply S|right; split; auto; eapply same_absent; eauto]. Qed.
Lemma opt_ext {A} (R : jval -> A -> Prop) k o m s : same k o m -> says_opt R m k s -> says_opt R o k s.
Proof. intros S [(t & x & H & X)|(H & E)]; [left; exists t, x; split; auto; now apply S|right; split; auto; eapply same_absent; eauto]. Qed.
Ltac find_member := repeat first [apply same_skip; [solve [gone]|] | apply same_cons; [discriminate|] | apply same_hit; solve [gone] | apply same_refl].
Ltac said := lazymatch goal with
  | |- says_text _ _ _ => eapply text_ext; [find_member|apply text_self]
  | |- says_flag _ _ _ => eapply flag_ext; [find_member|apply flag_self]
  | |- says_int _ _ _ => eapply int_ext; [find_member|apply int_self]
  | |- says_list _ _ _ _ => eapply list_ext; [find_member|apply list_self]
  | |- says_map _ _ _ _ => eapply map_ext_at; [find_member|apply map_self]
  | |- says_opt _ _ _ _ => eapply opt_ext; [find_member|apply opt_self]
  | |- has _ _ _ => unfold has; repeat (rewrite in_app_iff || cbn [In]); tauto end.

(** ** Schemas *)
Fixpoint Schema_ind' (P : Schema -> Prop)
  (H : forall ref t f ml enum allOf items props addl desc, Forall P allOf -> (forall i, items = Some i -> P i) -> Forall (fun kp => P (snd kp)) props ->
     (forall a, addl = Some a -> P a) -> P (mkSchema ref t f ml enum allOf items props addl desc)) (s : Schema) {struct s} : P s :=
  match s with
  | mkSchema ref t f ml enum allOf items props addl desc =>
      H ref t f ml enum allOf items props addl desc
        ((fix go (l : list Schema) : Forall P l := match l with [] => Forall_nil _ | x :: r => Forall_cons x (Schema_ind' P H x) (go r) end) allOf)
        (match items with None => fun i (E : None = Some i) => match E in (_ = y) return match y with None => True | Some _ => P i end with eq_refl => I end
                        | Some x => fun i E => match E in (_ = y) return match y with None => True | Some z => P z end with eq_refl => Schema_ind' P H x end end)
        ((fix go (l : list (string * Schema)) : Forall (fun kp => P (snd kp)) l :=
            match l with [] => Forall_nil _ | x :: r => Forall_cons x (Schema_ind' P H (snd x)) (go r) end) props)
        (match addl with None => fun i (E : None = Some i) => match E in (_ = y) return match y with None => True | Some _ => P i end with eq_refl => I end
                        | Some x => fun i E => match E in (_ = y) return match y with None => True | Some z => P z end with eq_refl => Schema_ind' P H x end end)
  end.

Section Value.
  Context (float : string -> string).
  Lemma schema_said s : schema_value float (schema_json float s) s.
  Proof.
    induction s as [ref t f ml enum allOf items props addl desc IA II IP IAd] using Schema_ind'. cbn [schema_json].
    constructor; cbn [s_ref s_type s_format s_maxLength s_enum s_allOf s_items s_props s_addl s_desc]; said; auto.
    apply Forall_forall. intros e _. destruct e as [x|z|b|x]; cbn; auto. exists (itoa z). split; [reflexivity|apply itoa_integer].
  Qed.
  Lemma content_said (l : list (string * Schema)) : Forall (fun ks => media_value float (media_json float (snd ks)) (snd ks)) l.
  Proof. apply Forall_forall. intros (k & s) _. exists [("schema", schema_json float s)], (schema_json float s). repeat split; [left; reflexivity|apply schema_said]. Qed.
  Lemma parameter_said p : parameter_value float (parameter_json float p) p.
  Proof. eexists _, (schema_json float (pa_schema p)). split; [reflexivity|]. repeat split; try said. apply schema_said. Qed.
  Lemma header_said p : header_value float (header_json float p) p.
  Proof. eexists _, (schema_json float (h_schema p)). split; [reflexivity|]. repeat split; try said. apply schema_said. Qed.
  Lemma response_said p : response_value float (response_json float p) p.
  Proof.
    eexists. split; [reflexivity|]. repeat split; try said.
    - apply Forall_forall. intros x _. apply header_said.
    - apply content_said.
  Qed.
  Lemma operation_said p : operation_value float (operation_json float p) p.
  Proof.
    eexists. split; [reflexivity|]. repeat split; try said.
    - apply Forall_forall. intros x _. apply parameter_said.
    - intros l _. eexists. split; [reflexivity|]. unfold content_json. said. apply content_said.
    - apply Forall_forall. intros x _. apply response_said.
  Qed.
  Lemma path_said p : path_value float (path_json float p) p.
  Proof. eexists. split; [reflexivity|]. repeat split; said; auto using operation_said. Qed.
  Lemma document_said d : document_value float (document_json float d) d.
  Proof.
    eexists _, _, _, _, _. split; [reflexivity|].
    split; [left; reflexivity|]. split; [right; left; reflexivity|]. split; [left; reflexivity|]. split; [said|]. split; [said|].
    split; [said|]. split; [said|]. split; [said|]. split; [said|]. split; [said|]. split; [left; reflexivity|]. split; [said|].
    split; [said; apply Forall_forall; intros x _; eexists; split; [reflexivity|said]|].
    split; [said; apply Forall_forall; intros x _; apply path_said|].
    split; [said|]. said. apply Forall_forall. intros x _. apply schema_said.
  Qed.
End Value.

(** ** Names of members *)
Lemma unique_arr l : unique_names (JArr l) <-> Forall unique_names l.
Proof. cbn. induction l as [|x l IH]; cbn; [split; auto|]. rewrite IH, Forall_cons_iff. tauto. Qed.
Lemma unique_obj l : unique_names (JObj l) <-> NoDup (map fst l) /\ Forall (fun kv => unique_names (snd kv)) l.
Proof.
  assert (H : fold_right (fun kv acc => unique_names (snd kv) /\ acc) True l <-> Forall (fun kv => unique_names (snd kv)) l).
  { induction l as [|x l IH]; cbn; [split; auto|]. rewrite IH, Forall_cons_iff. tauto. }
  cbn. rewrite H. tauto.
Qed.
(** An object of distinct names and values without repeated names. *)
Definition distinct (l : obj) : Prop := NoDup (map fst l) /\ Forall (fun kv => unique_names (snd kv)) l.
Lemma distinct_nil : distinct [].
Proof. split; constructor. Qed.
Lemma distinct_cons k v l : unique_names v -> absent l k -> distinct l -> distinct ((k, v) :: l).
Proof. intros U A (N & F). split; constructor; auto. Qed.
Lemma distinct_text k s l : absent l k -> distinct l -> distinct (text_member k s ++ l)%list.
Proof. unfold text_member. destruct (String.eqb s ""); cbn; auto. intros. apply distinct_cons; cbn; auto. Qed.
Lemma distinct_flag k b l : absent l k -> distinct l -> distinct (flag_member k b ++ l)%list.
Proof. destruct b; cbn; auto. intros. apply distinct_cons; cbn; auto. Qed.
Lemma distinct_int k z l : absent l k -> distinct l -> distinct (int_member k z ++ l)%list.
Proof. unfold int_member. destruct (Z.eqb z 0); cbn; auto. intros. apply distinct_cons; cbn; auto. Qed.
Lemma distinct_list k vs l : Forall unique_names vs -> absent l k -> distinct l -> distinct (list_member k vs ++ l)%list.
Proof. unfold list_member. destruct vs; [auto|]. intros. apply distinct_cons; auto. now apply unique_arr. Qed.
Lemma distinct_map k vs l : distinct vs -> absent l k -> distinct l -> distinct (map_member k vs ++ l)%list.
Proof. unfold map_member. destruct vs; [auto|]. intros. apply distinct_cons; auto. now apply unique_obj. Qed.
Lemma distinct_opt k v l : (forall x, v = Some x -> unique_names x) -> absent l k -> distinct l -> distinct (opt_member k v ++ l)%list.
Proof. destruct v; [|auto]. intros. apply distinct_cons; auto. Qed.
Lemma distinct_end l : distinct (l ++ [])%list -> distinct l.
Proof. now rewrite List.app_nil_r. Qed.
Lemma distinct_keyed {A} (f : A -> jval) l : NoDup (map fst l) -> Forall (fun ka => unique_names (f (snd ka))) l ->
  distinct (map (fun ka : string * A => (fst ka, f (snd ka))) l).
Proof.
  intros N F. split; [now rewrite map_map|]. apply Forall_map. exact F.
Qed.

(** Documents whose schemas all satisfy [Q] and whose maps have every key once. *)
Section Tidy.
  Context (Q : Schema -> Prop).
  Definition tidy_map (l : list (string * Schema)) : Prop := NoDup (map fst l) /\ Forall (fun ks => Q (snd ks)) l.
  Definition tidy_headers (l : list (string * Header)) : Prop := NoDup (map fst l) /\ Forall (fun kh => Q (h_schema (snd kh))) l.
  Definition tidy_response (r : Response) : Prop := tidy_headers (resp_headers r) /\ tidy_map (resp_content r).
  Definition tidy_operation (o : Operation) : Prop :=
    Forall (fun p => Q (pa_schema p)) (op_parameters o) /\ (forall l, op_requestBody o = Some l -> tidy_map l) /\
    NoDup (map fst (op_responses o)) /\ Forall (fun kr => tidy_response (snd kr)) (op_responses o).
  Definition tidy_path (p : PathItem) : Prop := Forall tidy_operation (operations p).
  Definition tidy_document (d : Document) : Prop :=
    NoDup (map fst (d_paths d)) /\ Forall (fun kp => tidy_path (snd kp)) (d_paths d) /\ tidy_map (d_schemas d).
End Tidy.

Section Unique.
  Context (float : string -> string).
  Definition neat (s : Schema) : Prop := unique_names (schema_json float s).
  Lemma neat_schema ref t f ml enum allOf items props addl desc :
    Forall neat allOf -> (forall i, items = Some i -> neat i) -> tidy_map neat props -> (forall a, addl = Some a -> neat a) ->
    neat (mkSchema ref t f ml enum allOf items props addl desc).
  Proof.
    intros A I (P1 & P2) Ad. unfold neat. cbn [schema_json]. apply unique_obj.
    apply distinct_text; [gone|]. apply distinct_int; [gone|].
    apply distinct_list; [apply Forall_map, Forall_forall; intros [x|x|x|x] _; exact Logic.I|gone|].
    apply distinct_text; [gone|]. apply distinct_text; [gone|].
    apply distinct_list; [now apply Forall_map|gone|].
    apply distinct_opt; [destruct items; intros x E; [injection E as <-; now apply I|discriminate]|gone|].
    apply distinct_map; [now apply distinct_keyed|gone|].
    apply distinct_opt; [destruct addl; intros x E; [injection E as <-; now apply Ad|discriminate]|gone|].
    apply distinct_end, distinct_text; [gone|apply distinct_nil].
  Qed.
  Lemma neat_plain ref t f ml enum desc : neat (mkSchema ref t f ml enum [] None [] None desc).
  Proof. apply neat_schema; auto; try discriminate. split; constructor. Qed.
  Lemma media_unique s : neat s -> unique_names (media_json float s).
  Proof. intros N. cbn. repeat split; auto. repeat constructor. intros []. Qed.
  Lemma content_distinct l : tidy_map neat l -> distinct (content_json float l).
  Proof. intros (N & F). apply distinct_keyed; auto. eapply Forall_impl; [|exact F]. intros ks. apply media_unique. Qed.
  Lemma parameter_unique p : neat (pa_schema p) -> unique_names (parameter_json float p).
  Proof.
    intros N. apply unique_obj. apply distinct_text; [gone|]. apply distinct_text; [gone|]. apply distinct_flag; [gone|]. apply distinct_text; [gone|].
    apply distinct_flag; [gone|]. apply distinct_cons; [exact N|gone|apply distinct_nil].
  Qed.
  Lemma header_unique h : neat (h_schema h) -> unique_names (header_json float h).
  Proof. intros N. apply unique_obj. apply distinct_flag; [gone|]. apply distinct_cons; [exact N|gone|apply distinct_nil]. Qed.
  Lemma response_unique r : tidy_response neat r -> unique_names (response_json float r).
  Proof.
    intros ((N & F) & C). apply unique_obj. apply distinct_cons; [exact I|gone|].
    apply distinct_map; [apply distinct_keyed; auto; eapply Forall_impl; [|exact F]; intros kh; apply header_unique|gone|].
    apply distinct_end, distinct_map; [now apply content_distinct|gone|apply distinct_nil].
  Qed.
  Lemma operation_unique o : tidy_operation neat o -> unique_names (operation_json float o).
  Proof.
    intros (P & B & N & F). apply unique_obj. apply distinct_text; [gone|]. apply distinct_text; [gone|].
    apply distinct_list; [apply Forall_map; eapply Forall_impl; [|exact P]; intros p; apply parameter_unique|gone|].
    apply distinct_opt; [|gone|].
    - destruct (op_requestBody o) as [l|]; intros x E; [|discriminate]. injection E as <-. apply unique_obj.
      apply distinct_end, distinct_map; [apply content_distinct; auto|gone|apply distinct_nil].
    - apply distinct_end, distinct_map; [|gone|apply distinct_nil].
      apply distinct_keyed; auto. eapply Forall_impl; [|exact F]. intros kr. apply response_unique.
  Qed.
  Lemma path_unique p : tidy_path neat p -> unique_names (path_json float p).
  Proof.
    unfold tidy_path, operations. destruct p as [a b c d e f g h]. cbn [pi_get pi_put pi_post pi_delete pi_options pi_head pi_patch pi_trace flat_map].
    rewrite !Forall_app. intros (A & B & C & D & E & F & G & H & _). apply unique_obj. cbn [pi_get pi_put pi_post pi_delete pi_options pi_head pi_patch pi_trace].
    assert (X : forall o, Forall (tidy_operation neat) match o with None => [] | Some o => [o] end ->
       forall x, match o with None => None | Some x => Some (operation_json float x) end = Some x -> unique_names x).
    { intros [o|] Ho x Ex; [|discriminate]. injection Ex as <-. apply operation_unique. now inversion Ho. }
    unfold operation_member. repeat (apply distinct_opt; [apply X; assumption|gone|]). apply distinct_end, distinct_opt; [apply X; assumption|gone|apply distinct_nil].
  Qed.
  Lemma document_unique d : tidy_document neat d -> unique_names (document_json float d).
  Proof.
    intros (N & F & (N' & F')). apply unique_obj. apply distinct_cons; [exact I|gone|]. apply distinct_cons; [|gone|].
    - apply unique_obj. apply distinct_cons; [exact I|gone|]. apply distinct_text; [gone|]. apply distinct_cons; [|gone|].
      { apply unique_obj. apply distinct_text; [gone|]. apply distinct_text; [gone|]. apply distinct_end, distinct_text; [gone|apply distinct_nil]. }
      apply distinct_cons; [|gone|].
      { apply unique_obj. apply distinct_cons; [exact I|gone|]. apply distinct_end, distinct_text; [gone|apply distinct_nil]. }
      apply distinct_cons; [exact I|gone|apply distinct_nil].
    - apply distinct_list; [|gone|].
      { apply Forall_map, Forall_forall. intros u _. apply unique_obj. apply distinct_end, distinct_text; [gone|apply distinct_nil]. }
      apply distinct_map; [|gone|].
      { apply distinct_keyed; auto. eapply Forall_impl; [|exact F]. intros kp. apply path_unique. }
      apply distinct_cons; [|gone|apply distinct_nil]. apply unique_obj. apply distinct_end, distinct_map; [|gone|apply distinct_nil].
      apply distinct_keyed; auto.
  Qed.
End Unique.

(** ** Texts *)
Definition sounds (l : obj) : Prop := Forall (fun kv => utf8 (fst kv) /\ sound (snd kv)) l.
Ltac latin := repeat (apply utf8_1; [unfold byte_in; cbn; lia|]); apply utf8_end.
Lemma sounds_app a b : sounds a -> sounds b -> sounds (a ++ b)%list.
Proof. intros A B. apply Forall_app. auto. Qed.
Lemma sounds_cons k v l : utf8 k -> sound v -> sounds l -> sounds ((k, v) :: l).
Proof. intros K V L. constructor; auto. Qed.
Lemma sounds_nil : sounds [].
Proof. constructor. Qed.
Lemma sounds_text k s : utf8 k -> utf8 s -> sounds (text_member k s).
Proof. unfold text_member. destruct (String.eqb s ""); intros; [apply sounds_nil|apply sounds_cons; auto using sounds_nil]. Qed.
Lemma sounds_flag k b : utf8 k -> sounds (flag_member k b).
Proof. destruct b; intros; [apply sounds_cons; cbn; auto using sounds_nil|apply sounds_nil]. Qed.
Lemma sounds_int k z : utf8 k -> sounds (int_member k z).
Proof. unfold int_member. destruct (Z.eqb z 0); intros; [apply sounds_nil|apply sounds_cons; cbn; auto using sounds_nil, itoa_number]. Qed.
Lemma sounds_list k l : utf8 k -> Forall sound l -> sounds (list_member k l).
Proof. unfold list_member. destruct l; intros; [apply sounds_nil|apply sounds_cons; auto using sounds_nil]. now apply sound_arr. Qed.
Lemma sounds_map k l : utf8 k -> sounds l -> sounds (map_member k l).
Proof. unfold map_member. destruct l; intros; [apply sounds_nil|apply sounds_cons; auto using sounds_nil]. now apply sound_obj. Qed.
Lemma sounds_opt k v : utf8 k -> (forall x, v = Some x -> sound x) -> sounds (opt_member k v).
Proof. destruct v; intros; [apply sounds_cons; auto using sounds_nil|apply sounds_nil]. Qed.
Lemma keyed_forall {A} (T : A -> list string) l : Forall utf8 (keyed_texts T l) <-> Forall (fun ka => utf8 (fst ka) /\ Forall utf8 (T (snd ka))) l.
Proof.
  unfold keyed_texts. induction l as [|x l IH]; [split; constructor|]. cbn [flat_map]. rewrite Forall_app, Forall_cons_iff, Forall_cons_iff, IH. tauto.
Qed.
Lemma flat_forall {A} (T : A -> list string) l : Forall utf8 (flat_map T l) <-> Forall (fun a => Forall utf8 (T a)) l.
Proof. induction l as [|x l IH]; [split; constructor|]. cbn [flat_map]. rewrite Forall_app, Forall_cons_iff, IH. tauto. Qed.
Lemma sounds_keyed {A} (f : A -> jval) (T : A -> list string) l : (forall ka, In ka l -> Forall utf8 (T (snd ka)) -> sound (f (snd ka))) ->
  Forall utf8 (keyed_texts T l) -> sounds (map (fun ka => (fst ka, f (snd ka))) l).
Proof.
  intros H U. apply keyed_forall in U. apply Forall_map. rewrite Forall_forall in *. intros ka I. specialize (U _ I) as (U1 & U2). split; auto. apply (H ka); auto.
Qed.
Section Sound.
  Context (float : string -> string) (Hf : forall t, number (float t)).
  Lemma schema_sound s : Forall utf8 (schema_texts s) -> sound (schema_json float s).
  Proof.
    induction s as [ref t f ml enum allOf items props addl desc IA II IP IAd] using Schema_ind'. cbn [schema_json schema_texts].
    rewrite !Forall_app. intros (B & E & A & I & P & Ad). inversion_clear B as [|? ? B1 B']. inversion_clear B' as [|? ? B2 B3]. inversion_clear B3 as [|? ? B4 B5].
    inversion_clear B5 as [|? ? B6 _]. apply sound_obj. fold sounds.
    apply sounds_app; [apply sounds_text; auto; latin|]. apply sounds_app; [apply sounds_int; latin|].
    apply sounds_app; [apply sounds_list; [latin|]|].
    { apply Forall_map. rewrite flat_forall in E. eapply Forall_impl; [|exact E]. intros [x|x|x|x] U; cbn in *; auto using itoa_number. now inversion U. }
    apply sounds_app; [apply sounds_text; auto; latin|]. apply sounds_app; [apply sounds_text; auto; latin|].
    apply sounds_app; [apply sounds_list; [latin|]|].
    { apply Forall_map. rewrite flat_forall in A. rewrite Forall_forall in *. intros x X. apply IA; auto. }
    apply sounds_app; [apply sounds_opt; [latin|]|].
    { destruct items; intros x X; [injection X as <-|discriminate]. now apply II. }
    apply sounds_app; [apply sounds_map; [latin|]|].
    { apply (sounds_keyed _ schema_texts); auto. rewrite Forall_forall in IP. exact IP. }
    apply sounds_app; [apply sounds_opt; [latin|]|apply sounds_text; auto; latin].
    destruct addl; intros x X; [injection X as <-|discriminate]. now apply IAd.
  Qed.
  Lemma content_sound l : Forall utf8 (keyed_texts schema_texts l) -> sounds (content_json float l).
  Proof. apply sounds_keyed. intros ka _ U. apply sound_obj. apply sounds_cons; [latin|now apply schema_sound|apply sounds_nil]. Qed.
  Lemma parameter_sound p : Forall utf8 (parameter_texts p) -> sound (parameter_json float p).
  Proof.
    intros U. inversion_clear U as [|? ? U1 U']. inversion_clear U' as [|? ? U2 U3]. inversion_clear U3 as [|? ? U4 U5]. apply sound_obj. fold sounds.
    repeat (apply sounds_app; [first [apply sounds_text; [latin|assumption]|apply sounds_flag; latin]|]).
    apply sounds_cons; [latin|now apply schema_sound|apply sounds_nil].
  Qed.
  Lemma response_sound r : Forall utf8 (response_texts r) -> sound (response_json float r).
  Proof.
    unfold response_texts. rewrite Forall_app. intros (H & C). apply sound_obj. fold sounds. apply sounds_cons; [latin|apply utf8_end|].
    apply sounds_app; apply sounds_map; [latin| |latin|now apply content_sound].
    revert H. apply sounds_keyed. intros kh _ U. apply sound_obj. fold sounds. apply sounds_app; [apply sounds_flag; latin|].
    apply sounds_cons; [latin|now apply schema_sound|apply sounds_nil].
  Qed.
  Lemma operation_sound o : Forall utf8 (operation_texts o) -> sound (operation_json float o).
  Proof.
    unfold operation_texts. intros U. inversion_clear U as [|? ? U1 U']. inversion_clear U' as [|? ? U2 U3]. rewrite !Forall_app in U3. destruct U3 as (P & B & R).
    apply sound_obj. fold sounds. apply sounds_app; [apply sounds_text; auto; latin|]. apply sounds_app; [apply sounds_text; auto; latin|].
    apply sounds_app; [apply sounds_list; [latin|]|].
    { apply Forall_map. rewrite flat_forall in P. eapply Forall_impl; [|exact P]. intros p. apply parameter_sound. }
    apply sounds_app; [apply sounds_opt; [latin|]|].
    { destruct (op_requestBody o) as [l|]; intros x X; [injection X as <-|discriminate]. apply sound_obj. apply sounds_map; [latin|]. now apply content_sound. }
    apply sounds_map; [latin|]. revert R. apply sounds_keyed. intros kr _. apply response_sound.
  Qed.
  Lemma path_sound p : Forall utf8 (flat_map operation_texts (operations p)) -> sound (path_json float p).
  Proof.
    rewrite flat_forall. unfold operations. destruct p as [a b c d e f g h]. cbn [pi_get pi_put pi_post pi_delete pi_options pi_head pi_patch pi_trace flat_map].
    rewrite !Forall_app. intros (A & B & C & D & E & F & G & H & _). apply sound_obj. fold sounds. cbn [pi_get pi_put pi_post pi_delete pi_options pi_head pi_patch pi_trace].
    assert (X : forall o, Forall (fun o => Forall utf8 (operation_texts o)) match o with None => [] | Some o => [o] end ->
       forall x, match o with None => None | Some x => Some (operation_json float x) end = Some x -> sound x).
    { intros [o|] Ho x Ex; [|discriminate]. injection Ex as <-. apply operation_sound. now inversion Ho. }
    unfold operation_member. repeat (apply sounds_app; [apply sounds_opt; [latin|apply X; assumption]|]). apply sounds_opt; [latin|apply X; assumption].
  Qed.
  Lemma document_sound d : Forall utf8 (document_texts d) -> sound (document_json float d).
  Proof.
    unfold document_texts. rewrite !Forall_app. intros (T & S & P & C).
    repeat match goal with X : Forall utf8 (_ :: _) |- _ => inversion_clear X end.
    apply sound_obj. fold sounds. apply sounds_cons; [latin|cbn; latin|]. apply sounds_cons; [latin| |].
    - apply sound_obj. fold sounds. apply sounds_cons; [latin|assumption|]. apply sounds_app; [apply sounds_text; auto; latin|].
      apply sounds_cons; [latin| |].
      { apply sound_obj. fold sounds. repeat apply sounds_app; apply sounds_text; auto; latin. }
      apply sounds_cons; [latin| |].
      { apply sound_obj. fold sounds. apply sounds_cons; [latin|assumption|]. apply sounds_text; auto; latin. }
      apply sounds_cons; [latin|assumption|apply sounds_nil].
    - apply sounds_app; [apply sounds_list; [latin|]|].
      { apply Forall_map. eapply Forall_impl; [|exact S]. intros u U. apply sound_obj. apply sounds_text; auto; latin. }
      apply sounds_app; [apply sounds_map; [latin|]|].
      { revert P. apply sounds_keyed. intros kp _. apply path_sound. }
      apply sounds_cons; [latin| |apply sounds_nil]. apply sound_obj. apply sounds_map; [latin|]. revert C. apply sounds_keyed. intros ks _. apply schema_sound.
  Qed.
End Sound.
