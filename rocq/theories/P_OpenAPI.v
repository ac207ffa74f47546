(** Proofs about the OpenAPI document. *)
From Coq Require Import List String Ascii Bool ZArith Arith Lia Permutation Sorted.
From Coq Require DecimalString DecimalZ.
From Verif Require Import BaseStr BaseMap M_Types M_Paths S_Paths P_Paths M_Tags S_Tags P_Tags S_Collect
  M_OpenAPI S_Names P_Names S_OpenAPI.
Import ListNotations.
Local Open Scope string_scope.

Lemma itoa_inj a b : itoa a = itoa b -> a = b.
Proof.
  unfold itoa. intros E. apply (f_equal DecimalString.NilEmpty.int_of_string) in E.
  rewrite !DecimalString.NilEmpty.isi in E. injection E as E. now apply DecimalZ.to_int_inj.
Qed.

(** ** Type mappings *)
Definition memo_from (given : list mapping_op) (memo : option (list (string * TypeFormat))) : Prop :=
  match memo with
  | None => True
  | Some m => forall k, mlookup k m = match last_given given k with
                                     | Some x => Some x
                                     | None => mlookup k PredefinedTypeMap
                                     end
  end.

Lemma last_given_app a b k :
  last_given (a ++ b) k = match last_given b k with Some x => Some x | None => last_given a k end.
Proof.
  induction a as [|[k' tf|k' p] a IH]; simpl; auto.
  - destruct (last_given b k); auto.
  - rewrite IH. destruct (last_given b k); auto.
Qed.

Lemma get_type_mapping_spec custom given memo key pkg :
  (forall k, mlookup k custom = last_given given k) -> memo_from given memo ->
  fst (GetTypeMapping custom memo key pkg) = mapping_answer given key pkg /\
  memo_from given (snd (GetTypeMapping custom memo key pkg)).
Proof.
  intros Hc Hm. unfold GetTypeMapping, mapping_answer, mapping_key, IsAcceptedType. cbn [fst snd].
  assert (Hfull : forall k, mlookup k match memo with Some m => m | None => maps_copy (maps_copy [] PredefinedTypeMap) custom end
                  = match last_given given k with Some x => Some x | None => mlookup k PredefinedTypeMap end).
  { intros k. destruct memo as [m|]; [apply Hm|]. unfold maps_copy. rewrite app_nil_r, mlookup_app, Hc. reflexivity. }
  split; [|exact Hfull]. rewrite Hfull. destruct (str_in key AcceptedTypes); reflexivity.
Qed.

Lemma asks_answers ops : forall custom given memo,
  (forall k, mlookup k custom = last_given given k) -> memo_from given memo ->
  forallb is_ask ops = true -> runMappings custom memo ops = mapping_answers given ops.
Proof.
  induction ops as [|[k tf|k p] ops IH]; intros custom given memo Hc Hm Ha; simpl in Ha; try discriminate; auto.
  cbn [runMappings mapping_answers].
  destruct (get_type_mapping_spec custom given memo k p Hc Hm) as [E Hm'].
  destruct (GetTypeMapping custom memo k p) as [a memo']. cbn [fst snd] in E, Hm'. rewrite E. f_equal. now apply IH.
Qed.

Lemma gives_then_asks gives : forall custom given asks,
  (forall k, mlookup k custom = last_given given k) ->
  forallb (fun op => negb (is_ask op)) gives = true -> forallb is_ask asks = true ->
  runMappings custom None (gives ++ asks) = mapping_answers given (gives ++ asks).
Proof.
  induction gives as [|[k tf|k p] gives IH]; intros custom given asks Hc Hg Ha; simpl in Hg; try discriminate.
  - apply asks_answers; simpl; auto.
  - cbn [app runMappings mapping_answers]. apply IH; auto.
    intros x. rewrite last_given_app. simpl. destruct (String.eqb k x); auto.
Qed.

Lemma get_type_mapping_any custom key pkg memo :
  memo = None \/ memo = snd (GetTypeMapping custom None "" "") ->
  fst (GetTypeMapping custom memo key pkg) = typeMapping custom key pkg.
Proof. intros [->| ->]; reflexivity. Qed.

(** ** Paths *)
Section Doc.
  Context (tm : string -> string -> option TypeFormat) (o : Orders)
          (names : list (string * string)) (components : list Field).

  Definition described : list string := ["GET"; "POST"; "PUT"; "PATCH"; "DELETE"; "HEAD"; "OPTIONS"].

  Lemma slot_set_method m m' op p :
    slot m (setMethod m' op p) = if String.eqb m' m && str_in m described then Some op else slot m p.
  Proof.
    destruct (String.eqb m' m) eqn:E.
    - apply String.eqb_eq in E; subst m'. unfold slot, setMethod, described, str_in. cbn [existsb].
      repeat match goal with |- context [String.eqb m ?x] =>
        let H := fresh "H" in destruct (String.eqb m x) eqn:H; [apply String.eqb_eq in H; subst m; reflexivity|] end.
      reflexivity.
    - cbn [andb]. unfold setMethod.
      assert (Hx : forall x, String.eqb m' x = true -> String.eqb m x = false).
      { intros x Hx. apply String.eqb_eq in Hx; subst. apply String.eqb_neq in E. apply String.eqb_neq. auto. }
      repeat match goal with |- context [String.eqb m' ?x] =>
        destruct (String.eqb m' x) eqn:?;
        [match goal with H : String.eqb m' x = true |- _ => apply Hx in H; unfold slot; rewrite H; reflexivity end|] end.
      reflexivity.
  Qed.

  Definition matches (path method : string) (r : Route) : bool :=
    String.eqb (openapi_path (rt_path r)) path && String.eqb (rt_method r) method.
  (** The last route for a path and method, with its position. *)
  Fixpoint last_route (path method : string) (i : nat) (routes : list Route) : option (nat * Route) :=
    match routes with
    | [] => None
    | r :: rest => match last_route path method (S i) rest with
                   | Some x => Some x
                   | None => if matches path method r then Some (i, r) else None
                   end
    end.
  Definition slot_at (path method : string) (paths : list (string * PathItem)) : option Operation :=
    match mlookup path paths with Some item => slot method item | None => None end.
  Definition op_at (i : nat) (r : Route) : Operation := operationOf tm o names components ["route"; itoa (Z.of_nat i)] r.

  Lemma slot_empty m : slot m emptyPath = None.
  Proof.
    unfold slot. repeat match goal with |- context [String.eqb ?x ?y] => destruct (String.eqb x y); [reflexivity|] end.
    reflexivity.
  Qed.

  Lemma add_paths_slot routes : forall i paths path method,
    slot_at path method (addPaths tm o names components i routes paths) =
    match last_route path method i routes with
    | Some (j, r) => if str_in method described then Some (op_at j r) else slot_at path method paths
    | None => slot_at path method paths
    end.
  Proof.
    induction routes as [|r rest IH]; intros i paths path method; cbn [addPaths last_route]; auto.
    rewrite IH.
    assert (H : slot_at path method (addPath tm o names components paths ["route"; itoa (Z.of_nat i)] r) =
                if matches path method r && str_in method described then Some (op_at i r) else slot_at path method paths).
    { unfold addPath, slot_at, matches. rewrite mlookup_insert.
      destruct (String.eqb (openapi_path (rt_path r)) path) eqn:E; [|reflexivity].
      apply String.eqb_eq in E. subst path. rewrite slot_set_method. cbn [andb].
      destruct (String.eqb (rt_method r) method && str_in method described); [reflexivity|].
      destruct (mlookup _ paths); [reflexivity|apply slot_empty]. }
    destruct (last_route path method (S i) rest) as [[j r']|].
    - destruct (str_in method described); [reflexivity|]. rewrite H, andb_false_r. reflexivity.
    - rewrite H. destruct (matches path method r); destruct (str_in method described); reflexivity.
  Qed.

  Lemma add_paths_key routes : forall i paths path,
    In path (mkeys (addPaths tm o names components i routes paths)) <->
    In path (mkeys paths) \/ exists r, In r routes /\ openapi_path (rt_path r) = path.
  Proof.
    induction routes as [|r rest IH]; intros i paths path; simpl.
    - split; [auto|]. intros [H|(r & [] & _)]; auto.
    - rewrite IH. unfold addPath. rewrite minsert_keys. split.
      + intros [[->|H]|(r' & H & E)]; eauto.
      + intros [H|(r' & [<-|H] & E)]; eauto.
  Qed.

  Lemma add_paths_sorted routes : forall i paths, msorted paths -> msorted (addPaths tm o names components i routes paths).
  Proof.
    induction routes as [|r rest IH]; intros i paths H; simpl; auto. apply IH. now apply minsert_sorted.
  Qed.

  Lemma last_route_in path method i routes j r :
    last_route path method i routes = Some (j, r) ->
    In r routes /\ openapi_path (rt_path r) = path /\ rt_method r = method.
  Proof.
    revert i. induction routes as [|r' rest IH]; intros i; simpl; [discriminate|].
    destruct (last_route path method (S i) rest) as [x|] eqn:E.
    - intros [= ->]. destruct (IH _ E) as (? & ? & ?). auto.
    - destruct (matches path method r') eqn:M; [|discriminate]. intros [= -> ->].
      apply andb_true_iff in M as [M1 M2]. apply String.eqb_eq in M1, M2. auto.
  Qed.

  Lemma last_route_some path method i routes r :
    In r routes -> openapi_path (rt_path r) = path -> rt_method r = method ->
    exists j r', last_route path method i routes = Some (j, r').
  Proof.
    revert i. induction routes as [|r' rest IH]; intros i Hr <- <-; [destruct Hr|].
    destruct Hr as [<-|Hin]; cbn [last_route].
    - destruct (last_route _ _ _ rest) as [[]|]; eauto. unfold matches. rewrite !String.eqb_refl. simpl. eauto.
    - destruct (IH (S i) Hin eq_refl eq_refl) as (j & r'' & ->). eauto.
  Qed.
End Doc.

Lemma generated_inv o custom config routes components names0 d names :
  generated o custom config routes components names0 d names ->
  exists c, config = Some c /\ makeCollisionSafeNames o components names0 = Ok names /\
    d_paths d = addPaths (typeMapping custom) o names components 0 routes [] /\
    d_schemas d = addSchemas (typeMapping custom) o names components [].
Proof.
  intros [c' E]. unfold buildDocument in E. destruct config as [c|]; [|discriminate].
  destruct (makeCollisionSafeNames o components names0) as [n| | |]; simpl in E; try discriminate.
  injection E as <- <- <-. exists c. auto.
Qed.

(** Each operation of the document is the operation of a route. *)
Lemma operation_at_route o custom config routes components names0 d names path method op :
  generated o custom config routes components names0 d names ->
  operation_at d path method op ->
  exists i r, last_route path method 0 routes = Some (i, r) /\ In method described /\
    op = op_at (typeMapping custom) o names components i r.
Proof.
  intros G (item & Hl & Hs). destruct (generated_inv _ _ _ _ _ _ _ _ G) as (c & _ & _ & Ep & _).
  rewrite Ep in Hl.
  pose proof (add_paths_slot (typeMapping custom) o names components routes 0 [] path method) as H.
  unfold slot_at in H at 1. rewrite Hl, Hs in H. cbn [slot_at mlookup] in H.
  destruct (last_route path method 0 routes) as [[i r]|] eqn:E; [|discriminate].
  destruct (str_in method described) eqn:Em; [|discriminate].
  injection H as ->. exists i, r. apply str_in_spec in Em. auto.
Qed.

Lemma route_operation_at o custom config routes components names0 d names r :
  generated o custom config routes components names0 d names ->
  In r routes -> In (rt_method r) described ->
  exists i r', last_route (openapi_path (rt_path r)) (rt_method r) 0 routes = Some (i, r') /\
    operation_at d (openapi_path (rt_path r)) (rt_method r) (op_at (typeMapping custom) o names components i r').
Proof.
  intros G Hr Hm. destruct (generated_inv _ _ _ _ _ _ _ _ G) as (c & _ & _ & Ep & _).
  destruct (last_route_some (openapi_path (rt_path r)) (rt_method r) 0 routes r Hr eq_refl eq_refl) as (i & r' & E).
  exists i, r'. split; auto.
  pose proof (add_paths_slot (typeMapping custom) o names components routes 0 [] (openapi_path (rt_path r)) (rt_method r)) as H.
  rewrite E in H. apply str_in_spec in Hm. rewrite Hm in H. unfold slot_at in H at 1.
  unfold operation_at. rewrite Ep. destruct (mlookup _ _) as [item|]; [|discriminate]. eauto.
Qed.

Lemma nodup_map_eq {A B} (f : A -> B) l x y : NoDup (map f l) -> In x l -> In y l -> f x = f y -> x = y.
Proof.
  induction l as [|a l IH]; simpl; [tauto|]. intros HN [->|Hx] [->|Hy] E; inversion HN; subst; auto.
  - exfalso. apply H1. rewrite E. now apply in_map.
  - exfalso. apply H1. rewrite <- E. now apply in_map.
Qed.

Lemma documents_op_at o custom config routes components names0 d names r op :
  generated o custom config routes components names0 d names ->
  distinct_routes routes -> (forall r, In r routes -> gin_path (rt_path r)) -> In r routes ->
  operation_at d (openapi_path (rt_path r)) (rt_method r) op ->
  exists i, op = op_at (typeMapping custom) o names components i r.
Proof.
  intros G HN Hg Hr Ho. destruct (operation_at_route _ _ _ _ _ _ _ _ _ _ _ G Ho) as (i & r' & E & _ & ->).
  apply last_route_in in E as (Hr' & Ep & Em). exists i. f_equal.
  apply openapi_path_inj in Ep; auto.
  apply (nodup_map_eq _ routes r' r HN Hr' Hr). congruence.
Qed.

(** ** Responses *)
Section Responses.
  Context (names : list (string * string)) (headers : list (string * Header)).

  Definition media_of (rt : ReturnType) : Schema :=
    match mapFieldToSchema names (ContentTypeToBindingTag (r_contentType rt)) (r_field rt) with
    | Some s => s | None => emptySchema end.
  Definition content_at (status ct : string) (rs : list (string * Response)) : option Schema :=
    match mlookup status rs with Some r => mlookup ct (resp_content r) | None => None end.

  Lemma add_response_keys rs rt s :
    In s (mkeys (addResponse names headers rs rt)) <-> s = itoa (r_status rt) \/ In s (mkeys rs).
  Proof. unfold addResponse. apply minsert_keys. Qed.

  Lemma add_responses_keys l rs s :
    In s (mkeys (fold_left (addResponse names headers) l rs)) <->
    In s (mkeys rs) \/ exists rt, In rt l /\ s = itoa (r_status rt).
  Proof.
    revert rs. induction l as [|rt l IH]; intros rs; simpl.
    - split; auto. intros [H|(x & [] & _)]; auto.
    - rewrite IH, add_response_keys. split.
      + intros [[->|H]|(x & H & E)]; eauto.
      + intros [H|(x & [<-|H] & E)]; eauto.
  Qed.

  Lemma add_response_content rs rt s ct :
    content_at s ct (addResponse names headers rs rt) =
    if String.eqb (itoa (r_status rt)) s && String.eqb (r_contentType rt) ct && negb (schema_is_empty (media_of rt))
    then Some (media_of rt) else content_at s ct rs.
  Proof.
    unfold content_at, addResponse. fold (media_of rt). rewrite mlookup_insert.
    destruct (String.eqb (itoa (r_status rt)) s) eqn:E; [|reflexivity].
    apply String.eqb_eq in E; subst s. cbn [andb].
    destruct (negb (schema_is_empty (media_of rt))) eqn:Ee.
    - cbn [resp_content]. rewrite mlookup_insert. rewrite andb_true_r.
      destruct (String.eqb (r_contentType rt) ct); [reflexivity|].
      destruct (mlookup _ rs); reflexivity.
    - rewrite andb_false_r. destruct (mlookup _ rs); reflexivity.
  Qed.

  (** The content comes from some return type of that status and content type. *)
  Lemma add_responses_content_in l rs s ct sch :
    content_at s ct (fold_left (addResponse names headers) l rs) = Some sch ->
    content_at s ct rs = Some sch \/
    exists rt, In rt l /\ s = itoa (r_status rt) /\ ct = r_contentType rt /\ sch = media_of rt /\ schema_is_empty sch = false.
  Proof.
    revert rs. induction l as [|rt l IH]; intros rs; simpl; auto. intros H.
    destruct (IH _ H) as [H'|(x & Hx & ? & ? & ? & ?)]; [|right; exists x; repeat split; auto].
    rewrite add_response_content in H'.
    destruct (_ && _ && _) eqn:E; auto. injection H' as <-.
    apply andb_true_iff in E as [E E3]. apply andb_true_iff in E as [E1 E2]. apply String.eqb_eq in E1, E2.
    apply negb_true_iff in E3. right. exists rt. repeat split; auto.
  Qed.

  Lemma add_responses_content l rs rt :
    In rt l -> schema_is_empty (media_of rt) = false ->
    (forall rt', In rt' l -> r_status rt' = r_status rt -> r_contentType rt' = r_contentType rt -> rt' = rt) ->
    content_at (itoa (r_status rt)) (r_contentType rt) (fold_left (addResponse names headers) l rs) = Some (media_of rt).
  Proof.
    intros Hin He. revert rs.
    assert (Hkeep : forall l rs, (forall rt', In rt' l -> r_status rt' = r_status rt -> r_contentType rt' = r_contentType rt -> rt' = rt) ->
       content_at (itoa (r_status rt)) (r_contentType rt) rs = Some (media_of rt) ->
       content_at (itoa (r_status rt)) (r_contentType rt) (fold_left (addResponse names headers) l rs) = Some (media_of rt)).
    { clear l Hin. induction l as [|x l IH]; intros rs Hu H; simpl; auto.
      apply IH; [intros; apply Hu; simpl; auto|]. rewrite add_response_content.
      destruct (_ && _ && _) eqn:E; auto. f_equal.
      apply andb_true_iff in E as [E E3]. apply andb_true_iff in E as [E1 E2]. apply String.eqb_eq in E1, E2.
      apply itoa_inj in E1. rewrite (Hu x); simpl; auto. }
    induction l as [|x l IH]; intros rs Hu; [destruct Hin|]. simpl. destruct Hin as [->|Hin].
    - apply Hkeep; [intros; apply Hu; simpl; auto|]. rewrite add_response_content, !String.eqb_refl, He. reflexivity.
    - apply IH; auto. intros; apply Hu; simpl; auto.
  Qed.

  (** With or without others. *)
  Lemma add_responses_some l rs rt :
    In rt l -> schema_is_empty (media_of rt) = false ->
    content_at (itoa (r_status rt)) (r_contentType rt) (fold_left (addResponse names headers) l rs) <> None.
  Proof.
    intros Hin He. revert rs.
    assert (Hkeep : forall l rs, content_at (itoa (r_status rt)) (r_contentType rt) rs <> None ->
       content_at (itoa (r_status rt)) (r_contentType rt) (fold_left (addResponse names headers) l rs) <> None).
    { clear l Hin. induction l as [|x l IH]; intros rs H; simpl; auto.
      apply IH. rewrite add_response_content. destruct (_ && _ && _); [discriminate|auto]. }
    induction l as [|x l IH]; intros rs; [destruct Hin|]. simpl. destruct Hin as [->|Hin]; auto.
    apply Hkeep. rewrite add_response_content, !String.eqb_refl, He. discriminate.
  Qed.

  Lemma add_responses_headers l rs s r :
    (forall s r, mlookup s rs = Some r -> resp_headers r = headers) ->
    mlookup s (fold_left (addResponse names headers) l rs) = Some r -> resp_headers r = headers.
  Proof.
    revert rs. induction l as [|rt l IH]; intros rs H; simpl; [apply H|].
    apply IH. intros s' r' E. unfold addResponse in E. rewrite mlookup_insert in E.
    destruct (String.eqb _ s'); [|eapply H; eauto].
    injection E as <-. destruct (negb _); destruct (mlookup _ rs) as [q|] eqn:Eq; simpl; try reflexivity; eapply H; eauto.
  Qed.
End Responses.

(** ** Request bodies *)
Section Bodies.
  Context (names : list (string * string)).
  Definition body_schema (b : BodyParam) : option Schema :=
    match mapFieldToSchema names (ContentTypeToBindingTag (b_contentType b)) (b_field b) with
    | Some s => Some (if String.eqb (b_name b) "" then s else objectSchema [(b_name b, s)])
    | None => None
    end.
  Definition body_at (ct : string) (rb : option (list (string * Schema))) : option Schema :=
    match rb with Some c => mlookup ct c | None => None end.

  Lemma add_body_at rb b ct :
    body_at ct (addBody names rb b) =
    match body_schema b with
    | Some s => if String.eqb (b_contentType b) ct then Some s else body_at ct rb
    | None => body_at ct rb
    end.
  Proof.
    unfold addBody, body_schema. destruct (mapFieldToSchema _ _ _) as [s|]; [|reflexivity].
    cbn [body_at]. rewrite mlookup_insert. destruct (String.eqb (b_contentType b) ct).
    - destruct (String.eqb (b_name b) ""); reflexivity.
    - destruct rb; reflexivity.
  Qed.

  Lemma add_bodies_in l rb ct s :
    body_at ct (fold_left (addBody names) l rb) = Some s ->
    body_at ct rb = Some s \/ exists b, In b l /\ b_contentType b = ct /\ body_schema b = Some s.
  Proof.
    revert rb. induction l as [|b l IH]; intros rb; simpl; auto. intros H.
    destruct (IH _ H) as [H'|(x & ? & ? & ?)]; [|right; exists x; auto].
    rewrite add_body_at in H'. destruct (body_schema b) eqn:E; auto.
    destruct (String.eqb (b_contentType b) ct) eqn:Ec; auto. apply String.eqb_eq in Ec.
    right. exists b. repeat split; auto. congruence.
  Qed.

  Lemma add_bodies_at l rb b s :
    In b l -> body_schema b = Some s ->
    (forall b', In b' l -> b_contentType b' = b_contentType b -> b' = b) ->
    body_at (b_contentType b) (fold_left (addBody names) l rb) = Some s.
  Proof.
    intros Hin Hs. revert rb.
    assert (Hkeep : forall l rb, (forall b', In b' l -> b_contentType b' = b_contentType b -> b' = b) ->
       body_at (b_contentType b) rb = Some s ->
       body_at (b_contentType b) (fold_left (addBody names) l rb) = Some s).
    { clear l Hin. induction l as [|x l IH]; intros rb Hu H; simpl; auto.
      apply IH; [intros; apply Hu; simpl; auto|]. rewrite add_body_at.
      destruct (body_schema x) eqn:E; auto. destruct (String.eqb _ _) eqn:Ec; auto.
      apply String.eqb_eq in Ec. rewrite (Hu x) in E; simpl; auto. congruence. }
    induction l as [|x l IH]; intros rb Hu; [destruct Hin|]. simpl. destruct Hin as [->|Hin].
    - apply Hkeep; [intros; apply Hu; simpl; auto|]. rewrite add_body_at, Hs, String.eqb_refl. reflexivity.
    - apply IH; auto. intros; apply Hu; simpl; auto.
  Qed.

  (** With or without others. *)
  Lemma add_bodies_some l rb b s :
    In b l -> body_schema b = Some s -> body_at (b_contentType b) (fold_left (addBody names) l rb) <> None.
  Proof.
    intros Hin Hs. revert rb.
    assert (Hkeep : forall l rb, body_at (b_contentType b) rb <> None ->
       body_at (b_contentType b) (fold_left (addBody names) l rb) <> None).
    { clear l Hin. induction l as [|x l IH]; intros rb H; simpl; auto.
      apply IH. rewrite add_body_at. destruct (body_schema x); auto. destruct (String.eqb _ _); [discriminate|auto]. }
    induction l as [|x l IH]; intros rb; [destruct Hin|]. simpl. destruct Hin as [->|Hin]; auto.
    apply Hkeep. rewrite add_body_at, Hs, String.eqb_refl. discriminate.
  Qed.
End Bodies.

(** ** Parameters *)
Section Parameters.
  Context (tm : string -> string -> option TypeFormat) (o : Orders)
          (names : list (string * string)) (components : list Field).

  Definition entry (q : OParam) : string * string * bool := (pa_name q, pa_in q, pa_required q).

  Lemma unbound_schema t p : unbound p -> exists s, mapParamToSchema names t p = Some s.
  Proof.
    unfold unbound, mapParamToSchema. intros ->. destruct (p_isArray p); eauto. destruct (p_isMap p); eauto.
  Qed.

  Lemma simple_params_in t place params p :
    In p params -> unbound p -> In (entry_of place p) (map entry (simpleParams names t place params)).
  Proof.
    intros Hin Hu. destruct (unbound_schema t p Hu) as [s Es]. apply in_map_iff.
    exists (mkParameter (p_name p) place (p_isRequired p) "" false s). split; [reflexivity|].
    apply in_flat_map. exists p. split; auto. rewrite Es. left; auto.
  Qed.

  Lemma simple_params_exact t place params :
    Forall unbound params -> map entry (simpleParams names t place params) = map (entry_of place) params.
  Proof.
    induction 1 as [|p l Hp _ IH]; simpl; auto. destruct (unbound_schema t p Hp) as [s ->]. simpl. now rewrite IH.
  Qed.

  Lemma query_param_unbound site p : unbound p -> map entry (queryParam tm o names components site p) = [entry_of "query" p].
  Proof.
    intros Hu. unfold queryParam. destruct (unbound_schema FormBindingTag p Hu) as [s ->].
    unfold unbound in Hu. rewrite Hu. destruct (getQueryParamStyle s). reflexivity.
  Qed.

  Lemma query_params_in site params : forall i p,
    In p params -> unbound p -> In (entry_of "query" p) (map entry (queryParams tm o names components site i params)).
  Proof.
    induction params as [|q l IH]; intros i p Hp Hu; [destruct Hp|].
    cbn [queryParams]. rewrite map_app, in_app_iff. destruct Hp as [->|Hin].
    - left. rewrite query_param_unbound; simpl; auto.
    - right. auto.
  Qed.

  Lemma query_params_exact site params : Forall unbound params -> forall i,
    map entry (queryParams tm o names components site i params) = map (entry_of "query") params.
  Proof.
    induction 1 as [|p l Hp _ IH]; intros i; auto. cbn [queryParams]. rewrite map_app, query_param_unbound, IH; auto.
  Qed.
End Parameters.
