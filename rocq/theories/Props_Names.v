(** C15-C17: schema names. *)
From Coq Require Import List String Ascii Bool ZArith Arith Lia Permutation Sorted.
From Verif Require Import BaseStr BaseMap M_Types M_Tags S_Tags P_Tags S_Collect M_OpenAPI S_Names P_Names.
Import ListNotations.
Local Open Scope string_scope.

(** A struct component without fields, and one with a single field. *)
Definition comp (pkg name : string) : Field := mkField pkg "struct" name [] false false "" "" 0 "" "" "" [] [] [] "".
Definition comp1 (pkg name field tag : string) : Field :=
  mkField pkg "struct" name [] false false "" "" 0 "" "" ""
    [(field, mkField "" "string" "" [] false false "" "" 0 "" "" "" [] (fst (ParseStructTag field tag)) [] "")]
    [] [] "".

Lemma plain_orders_valid : valid_orders plain_orders.
Proof.
  repeat split; simpl; intros; auto.
  - induction l as [|p l IH]; simpl; auto.
    assert (forall q m, Permutation (q :: m) (insert_param q m)) as H.
    { intros q m. induction m as [|r m IHm]; simpl; auto. destruct (str_ltb _ _); auto.
      eapply Permutation_trans; [apply perm_swap|]. now constructor. }
    eapply Permutation_trans; [|apply H]. now constructor.
  - unfold name_sorted. induction l as [|p l IH]; simpl; [constructor|].
    induction IH as [|q m Hm IHm Hq]; simpl; [repeat constructor|].
    destruct (str_ltb (pa_name q) (pa_name p)) eqn:E.
    + constructor; auto. rewrite Forall_forall in *. intros x Hx.
      assert (x = p \/ In x m) as [->|Hin].
      { clear - Hx. induction m as [|r m IHm]; simpl in *; [intuition|].
        destruct (str_ltb _ _); simpl in Hx; intuition. }
      * apply not_true_is_false. intros H. exact (str_lt_asym _ _ E H).
      * auto.
    + constructor; [constructor; auto|]. constructor; auto.
      rewrite Forall_forall in *. intros x Hx. specialize (Hq x Hx).
      apply not_true_is_false. intros H. destruct (str_trichotomy (pa_name p) (pa_name q)) as [T|[T|T]].
      * pose proof (str_lt_trans _ _ _ H T). unfold str_lt in *. congruence.
      * rewrite T in H. congruence.
      * unfold str_lt in T. congruence.
Qed.

Lemma comp_parsed l : (forall c, In c l -> f_structFields c = []) -> parsed_components l.
Proof. intros H c Hc k f Hin. rewrite (H c Hc) in Hin. destruct Hin. Qed.

(** C15, full claim: components that differ in name or package have different schema names.
    False: three packages x/types, two of which also agree on the element before. *)
Theorem C15_distinct_names_refuted :
  exists components names n c1 c2, parsed_components components /\ NoDup (map comp_key components) /\
    makeCollisionSafeNames plain_orders components [] = Ok names /\
    In c1 components /\ In c2 components /\ comp_key c1 <> comp_key c2 /\
    makeComponentRefName names "json" (f_name c1) (f_package c1) = Some n /\
    makeComponentRefName names "json" (f_name c2) (f_package c2) = Some n.
Proof.
  set (l := [comp "a/x/types" "T"; comp "c/y/types" "T"; comp "b/x/types" "T"]).
  destruct (makeCollisionSafeNames plain_orders l []) as [names| | |] eqn:E; try discriminate.
  exists l, names, "x.types.T", (comp "a/x/types" "T"), (comp "b/x/types" "T").
  vm_compute in E. injection E as <-.
  split; [apply comp_parsed; simpl; intuition (subst; reflexivity)|].
  split; [repeat constructor; simpl; intuition discriminate|].
  split; [reflexivity|]. simpl. repeat split; auto. discriminate.
Qed.
Print Assumptions C15_distinct_names_refuted.

(** It is enough that one path is the end of the other. *)
Theorem C15_suffix_package_refuted :
  exists components names n c1 c2,
    makeCollisionSafeNames plain_orders components [] = Ok names /\
    components = [c1; c2] /\ f_package c1 <> f_package c2 /\
    makeComponentRefName names "json" (f_name c1) (f_package c1) = Some n /\
    makeComponentRefName names "json" (f_name c2) (f_package c2) = Some n.
Proof.
  eexists [comp "errors" "T"; comp "github.com/pkg/errors" "T"], _, "errors.T", (comp "errors" "T"), (comp "github.com/pkg/errors" "T").
  split; [vm_compute; reflexivity|]. split; [reflexivity|]. split; [discriminate|]. split; reflexivity.
Qed.
Print Assumptions C15_suffix_package_refuted.

(** Proved: if, for each last element, all different packages with that last element first differ
    at the same position, and the names have no dots, schema names identify components. *)
Theorem C15_distinct_names_partial : forall o components names level c1 c2 t1 t2 n,
  valid_orders o -> parsed_components components ->
  separated components level -> plain_names components level ->
  makeCollisionSafeNames o components [] = Ok names ->
  In c1 components -> In c2 components ->
  In t1 (NoBindingTag :: BindingTags) -> In t2 (NoBindingTag :: BindingTags) ->
  makeComponentRefName names t1 (f_name c1) (f_package c1) = Some n ->
  makeComponentRefName names t2 (f_name c2) (f_package c2) = Some n ->
  comp_key c1 = comp_key c2.
Proof. exact ref_name_inj. Qed.
Print Assumptions C15_distinct_names_partial.

Definition C15_ex := [comp "m/a/types" "T"; comp "m/b/types" "T"; comp "m/a/types" "U"; comp "m/api" "T"].
Definition C15_level (e : string) : nat := if String.eqb e "types" then 1 else 0.
Example C15_nontrivial :
  parsed_components C15_ex /\ separated C15_ex C15_level /\ plain_names C15_ex C15_level /\
  exists names, makeCollisionSafeNames plain_orders C15_ex [] = Ok names /\
    map (fun c => makeComponentRefName names "json" (f_name c) (f_package c)) C15_ex
    = [Some "a.types.T"; Some "b.types.T"; Some "a.types.U"; Some "api.T"].
Proof.
  split; [apply comp_parsed; simpl; intuition (subst; reflexivity)|].
  split; [|split].
  - intros c1 c2 H1 H2 He Hn. simpl in H1, H2. unfold first_differ_at.
    repeat destruct H1 as [<-|H1]; repeat destruct H2 as [<-|H2]; try destruct H1; try destruct H2;
      try (now contradiction Hn); try discriminate He;
      (split; [reflexivity|do 2 eexists; repeat split; discriminate]).
  - intros c H. simpl in H. repeat destruct H as [<-|H]; try destruct H;
      (split; [reflexivity|]; vm_compute; repeat constructor; try discriminate;
       intros H; repeat destruct H as [H|H]; try discriminate; destruct H).
  - eexists. split; [vm_compute; reflexivity|]. reflexivity.
Qed.

(** C16, full claim: naming completes for every list of components.  False. *)
Theorem C16_naming_completes_refuted :
  exists components, NoDup (map comp_key components) /\
    forall o names, valid_orders o -> makeCollisionSafeNames o components names = Panic.
Proof.
  exists [comp "a/x/errors" "T"; comp "b/x/errors" "T"; comp "errors" "T"].
  split; [repeat constructor; simpl; intuition discriminate|].
  intros o names Ho. apply make_names_panic_iff; auto.
  exists (comp "errors" "T"). split; [simpl; auto|reflexivity].
Qed.
Print Assumptions C16_naming_completes_refuted.

(** Proved: it completes, for all iteration orders and earlier names, if every package has more
    elements than any two packages with the same last element have in common at the end. *)
Theorem C16_naming_completes_partial : forall o components names,
  valid_orders o -> deep_enough components ->
  exists names', makeCollisionSafeNames o components names = Ok names'.
Proof. exact make_names_ok. Qed.
Print Assumptions C16_naming_completes_partial.

Example C16_nontrivial : deep_enough C15_ex.
Proof.
  intros c c1 c2 k H H1 H2 E1 E2 (Hf & x & y & Hx & Hy & Hne).
  assert (k <= 1) as Hk.
  { simpl in H1, H2. destruct k as [|[|k]]; auto. exfalso.
    repeat destruct H1 as [<-|H1]; repeat destruct H2 as [<-|H2]; try destruct H1; try destruct H2;
      vm_compute in Hf; try discriminate Hf; destruct k as [|[|k]]; simpl in Hx, Hy; congruence. }
  simpl in H. repeat destruct H as [<-|H]; try destruct H; vm_compute; lia.
Qed.

(** C17: naming the same service again changes no name, for all iteration orders of both runs. *)
Theorem C17_same_service_again : forall o o' components names0 names,
  valid_orders o -> valid_orders o' -> parsed_components components -> unambiguous components ->
  NoDup (map comp_key components) -> msorted names0 ->
  makeCollisionSafeNames o components names0 = Ok names ->
  makeCollisionSafeNames o' components names = Ok names.
Proof. exact make_names_again. Qed.
Print Assumptions C17_same_service_again.

(** Full claim "names do not depend on documents generated before": false at the level of
    documents.  Two services of one process hold a type p.T each (types declared in two functions
    share name and package), the first with an xml binding, the second with a json binding only;
    a response in XML of the second gets a reference only if the first was generated before. *)
Definition C17_config := Some (mkConfig "t" "d" "1" ("", "", "") ("", "") false "h" "/" 80).
Definition C17_route :=
  mkRoute "" "" 0 "GET" "/" [] [] [] [mkRet 200 "application/xml"
     (mkField "p" "T" "" [] false false "" "" 0 "" "" "" [] [] [] "")] "" "" [] [].
Theorem C17_history_free_refuted :
  exists componentsA componentsB routes dA cA names dB cB nB dB' cB' nB',
    buildDocument plain_orders [] C17_config [] componentsA [] = Ok (dA, cA, names) /\
    buildDocument plain_orders [] C17_config routes componentsB [] = Ok (dB, cB, nB) /\
    buildDocument plain_orders [] C17_config routes componentsB names = Ok (dB', cB', nB') /\
    d_paths dB <> d_paths dB'.
Proof.
  exists [comp1 "p" "T" "F" "xml:""f"""], [comp1 "p" "T" "F" "json:""f"""], [C17_route].
  do 9 eexists. split; [vm_compute; reflexivity|]. split; [vm_compute; reflexivity|].
  split; [vm_compute; reflexivity|]. discriminate.
Qed.
Print Assumptions C17_history_free_refuted.

(** Proved: under the tags a component of this service is registered with, the name is the one a
    fresh process would choose, whatever was generated before. *)
Theorem C17_history_free_partial : forall o o' components names0 names names',
  valid_orders o -> valid_orders o' -> parsed_components components -> unambiguous components ->
  NoDup (map comp_key components) ->
  makeCollisionSafeNames o components names0 = Ok names ->
  makeCollisionSafeNames o' components [] = Ok names' ->
  forall c t, In c components -> registered c t ->
    makeComponentRefName names t (f_name c) (f_package c) =
    makeComponentRefName names' t (f_name c) (f_package c) /\
    makeComponentRefName names t (f_name c) (f_package c) <> None.
Proof.
  intros o o' components names0 names names' Ho Ho' Hp Hu HN E E' c t Hc Ht.
  destruct (make_names_lookup _ _ _ _ Ho Hp Hu HN E) as [H1 _].
  destruct (make_names_lookup _ _ _ _ Ho' Hp Hu HN E') as [H2 _].
  unfold makeComponentRefName. rewrite (H1 c t), (H2 c t) by auto. split; [reflexivity|discriminate].
Qed.
Print Assumptions C17_history_free_partial.

Example C17_nontrivial :
  parsed_components C15_ex /\ unambiguous C15_ex /\ NoDup (map comp_key C15_ex) /\
  (forall c, In c C15_ex -> registered c "json") /\
  exists names, makeCollisionSafeNames plain_orders C15_ex [("m/a/types.json.T", "old"); ("zz", "old")] = Ok names /\
    makeComponentRefName names "json" "T" "m/a/types" = Some "a.types.T".
Proof.
  split; [apply comp_parsed; simpl; intuition (subst; reflexivity)|].
  split; [|split; [|split]].
  - split.
    + intros c H. simpl in H. repeat destruct H as [<-|H]; try destruct H; reflexivity.
    + intros c1 c2 t H1 H2 Ht. simpl in H1, H2, Ht.
      repeat destruct H1 as [<-|H1]; try destruct H1; repeat destruct H2 as [<-|H2]; try destruct H2;
      repeat destruct Ht as [<-|Ht]; try destruct Ht; discriminate.
  - repeat constructor; simpl; intuition discriminate.
  - intros c H. right. split; [|simpl; auto].
    simpl in H. repeat destruct H as [<-|H]; try destruct H; intros (t & k & f & b & [] & _).
  - eexists. split; [vm_compute; reflexivity|reflexivity].
Qed.
