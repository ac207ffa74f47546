(** Property theorems about the type analysis: C27, C28, C29, C53, C54. *)
From Coq Require Import List String Ascii Bool ZArith Arith Relations Lia.
From Verif Require Import BaseStr BaseMap M_Types M_Tags M_Collect M_OpenAPI S_Names Props_Names
  M_TypeTrav S_TypeTrav P_TypeTrav P_Fields.
Import ListNotations.
Local Open Scope string_scope.

(** A program given by a list of named types: package, name, definition, comment. *)
Definition env_of (types : list (option string * string * gtype * string))
  (decls : string -> list (list decl)) : TypeEnv :=
  let at_ id := nth id types (None, "error", GInterface, "") in
  mkTE (fun id => fst (fst (fst (at_ id)))) (fun id => snd (fst (fst (at_ id))))
       (fun id => snd (fst (at_ id))) (fun id => snd (at_ id)) (fun _ => true) decls (fun _ => true).
Definition no_decls : string -> list (list decl) := fun _ => [].
Definition gf (name : string) (t : gtype) : gfield gtype := mkGF name true false "" t (fun _ => None).
Definition tstring := GBasic "string" KString.
Definition tint := GBasic "int" KInt.

(** type Node struct { Value string; Next *Node } *)
Definition node_env : TypeEnv :=
  env_of [(Some "m", "Node", GStruct [gf "Value" tstring; gf "Next" (GPointer (GNamed 0))], "")] no_decls.
(** type Item struct { ID string; Tags []Tag }; type Tag string, of another package;
    type Items []Item, of a third. *)
Definition shop_env : TypeEnv :=
  env_of [(Some "shop/types", "Item", GStruct [gf "ID" tstring; gf "Tags" (GSlice (GNamed 1))], "An item.");
          (Some "shop/tags", "Tag", tstring, "");
          (Some "shop", "Items", GSlice (GNamed 0), "")] no_decls.

(** C27.  Full claim, "every type", refuted: a linked list. *)
Definition node_parts (t : gtype) : Prop :=
  t = GNamed 0 \/ t = te_under node_env 0 \/ t = GPointer (GNamed 0) \/ t = tstring.
Lemma node_reach t0 t : reach node_env true t0 t -> node_parts t0 -> node_parts t.
Proof.
  intros H. induction H as [t|t y z Hp Hr IH]; auto. intros G. apply IH. clear IH Hr. unfold node_parts in *.
  destruct G as [->|[->|[->| ->]]]; inversion Hp; subst; auto.
  match goal with H : In _ _ |- _ => destruct H as [<-|[<-|[]]]; simpl; auto end.
Qed.
Lemma node_analysable : analysable node_env "m" (GNamed 0).
Proof.
  split; [reflexivity|]. intros t' H. destruct (node_reach _ _ H (or_introl eq_refl)) as [->|[->|[->| ->]]]; simpl.
  - split; [discriminate|reflexivity].
  - intros f p d [<-|[<-|[]]] _; discriminate.
  - exact I.
  - discriminate.
Qed.

Theorem C27_type_analysis_terminates_refuted :
  exists env pkg t, analysable env pkg t /\
    forall fuel, snd (TypeResult fuel env true (Some pkg) "" t) = OutOfFuel.
Proof.
  exists node_env, "m", (GNamed 0). split; [exact node_analysable|]. intros fuel.
  destruct (analysable_fine fuel _ _ _ node_analysable) as [(l & r & E)|E]; auto.
  exfalso. assert (F := ok_finite _ _ _ _ _ _ _ E).
  assert (forall t, t = GNamed 0 \/ t = te_under node_env 0 \/ t = GPointer (GNamed 0) ->
            ~ finite_type node_env true t) as Hno.
  { intros t Ht Hf. induction Hf as [t _ IH]. destruct Ht as [->|[->| ->]].
    - apply (IH (te_under node_env 0)); auto. econstructor; reflexivity.
    - apply (IH (GPointer (GNamed 0))); auto.
      apply (part_field _ _ _ (gf "Next" (GPointer (GNamed 0)))); simpl; auto.
    - apply (IH (GNamed 0)); auto. constructor. }
  exact (Hno _ (or_introl eq_refl) F).
Qed.
Print Assumptions C27_type_analysis_terminates_refuted.

(** What holds: the analysis ends on every type that does not contain itself, whatever fails on
    the way; and, for programs without errors, on no other. *)
Theorem C27_finite_types_terminate_partial : forall env t, finite_type env true t ->
  exists n, forall fuel, n <= fuel -> forall pkg name,
    snd (TypeResult fuel env true pkg name t) <> OutOfFuel.
Proof. intros env t. exact (finite_terminates env true t). Qed.
Print Assumptions C27_finite_types_terminate_partial.

Theorem C27_terminates_iff_finite_partial : forall env pkg t, analysable env pkg t ->
  (finite_type env true t <-> exists fuel, snd (TypeResult fuel env true (Some pkg) "" t) <> OutOfFuel).
Proof. exact terminates_iff. Qed.
Print Assumptions C27_terminates_iff_finite_partial.

(** Without component registration the analysis always ends. *)
Theorem C27_unregistered_terminates : forall env t,
  exists n, forall fuel, n <= fuel -> forall pkg name,
    snd (TypeResult fuel env false pkg name t) <> OutOfFuel.
Proof. intros env t. exact (finite_terminates env false t (unfollowed_finite env t)). Qed.
Print Assumptions C27_unregistered_terminates.

(** The amount of work does not influence the answer. *)
Theorem C27_answer_stable : forall fuel more env add pkg name t, fuel <= more ->
  snd (TypeResult fuel env add pkg name t) <> OutOfFuel ->
  TypeResult more env add pkg name t = TypeResult fuel env add pkg name t.
Proof. exact type_mono. Qed.
Print Assumptions C27_answer_stable.

Example C27_nontrivial :
  finite_type shop_env true (GMap tstring (GPointer (GNamed 2))) /\
  exists l r, TypeResult 9 shop_env true (Some "shop") "" (GMap tstring (GPointer (GNamed 2))) = (l, Ok r)
              /\ List.length l = 3.
Proof.
  assert (E : exists l r, TypeResult 9 shop_env true (Some "shop") "" (GMap tstring (GPointer (GNamed 2))) = (l, Ok r)
              /\ List.length l = 3).
  { eexists _, _. vm_compute. split; reflexivity. }
  split; auto. destruct E as (l & r & E & _). eapply ok_finite; eauto.
Qed.

(** C28.  Full claim refuted: a slice type of elements from another package is registered under
    that other package, so the type itself is missing. *)
Theorem C28_reachable_named_types_registered_refuted :
  exists env pkg t fuel l r id p,
    TypeResult fuel env true (Some pkg) "" t = (l, Ok r) /\ reach env true t (GNamed id) /\
    te_pkg env id = Some p /\ te_name env id <> "" /\
    ~ exists c, In c (register [] l) /\ f_package c = p /\ f_name c = te_name env id.
Proof.
  exists shop_env, "shop", (GNamed 2), 9.
  eexists _, _. exists 2, "shop". split; [vm_compute; reflexivity|].
  split; [constructor|]. split; [reflexivity|]. split; [discriminate|].
  intros (c & Hc & Hp & Hn). vm_compute in Hc.
  repeat (destruct Hc as [<-|Hc]; [vm_compute in Hp, Hn; discriminate|]). destruct Hc.
Qed.
Print Assumptions C28_reachable_named_types_registered_refuted.

(** What holds: every reachable named type recorded under its own package is registered. *)
Theorem C28_reachable_named_types_registered_partial : forall fuel env pkg t l r id p comps,
  TypeResult fuel env true pkg "" t = (l, Ok r) -> reach env true t (GNamed id) ->
  te_pkg env id = Some p -> p <> "" -> te_name env id <> "" -> at_home env id ->
  exists c, In c (register comps l) /\ f_package c = p /\ f_name c = te_name env id.
Proof. exact components_present. Qed.
Print Assumptions C28_reachable_named_types_registered_partial.

(** And the component is the type's own description, unless two types share package and name. *)
Theorem C28_registered_description_is_own_partial : forall fuel env pkg t l r id p,
  TypeResult fuel env true pkg "" t = (l, Ok r) ->
  (forall i q, reach env true t (GNamed i) -> te_pkg env i = Some q ->
     q <> "" /\ te_name env i <> "" /\ at_home env i) ->
  (forall i j, reach env true t (GNamed i) -> reach env true t (GNamed j) ->
     te_pkg env i = te_pkg env j -> te_name env i = te_name env j -> i = j) ->
  reach env true t (GNamed id) -> te_pkg env id = Some p ->
  exists x, definition_of env id x /\
    forall c, In c (register [] l) -> f_package c = p -> f_name c = te_name env id ->
      c = ParseResultToField x.
Proof. exact components_own. Qed.
Print Assumptions C28_registered_description_is_own_partial.

(** Two local types of the same name: the second is documented by the first. *)
Definition local_env : TypeEnv :=
  env_of [(Some "m", "body", GStruct [gf "A" tstring], ""); (Some "m", "body", GStruct [gf "B" tint], "")] no_decls.
Theorem C28_registered_description_is_own_refuted :
  exists env pkg t fuel l r id p,
    TypeResult fuel env true (Some pkg) "" t = (l, Ok r) /\ reach env true t (GNamed id) /\
    te_pkg env id = Some p /\ at_home env id /\
    exists x c, definition_of env id x /\ In c (register [] l) /\
      f_package c = p /\ f_name c = te_name env id /\
      (forall c', In c' (register [] l) -> c' <> ParseResultToField x).
Proof.
  exists local_env, "m", (GMap (GNamed 0) (GNamed 1)), 9.
  eexists _, _. exists 1, "m". split; [vm_compute; reflexivity|].
  split; [eapply Relation_Operators.rt1n_trans; [apply part_value|constructor]|].
  split; [reflexivity|]. split; [split; [discriminate|reflexivity]|].
  eexists _, _. split; [exists "m", 9; eexists _, _; split; [reflexivity|]; split; [vm_compute; reflexivity|reflexivity]|].
  split; [left; reflexivity|]. split; [reflexivity|]. split; [reflexivity|].
  intros c' [<-|[]]. vm_compute. discriminate.
Qed.
Print Assumptions C28_registered_description_is_own_refuted.

(** Nothing but reachable named types is registered, also by an analysis that fails half-way. *)
Theorem C28_only_reachable_registered : forall fuel env pkg name t comps c,
  In c (register comps (fst (TypeResult fuel env true pkg name t))) ->
  In c comps \/ exists id x, reach env true t (GNamed id) /\ definition_of env id x /\ c = ParseResultToField x.
Proof.
  intros fuel env pkg name t comps c H. apply register_from in H.
  destruct H as [H|(x & Hx & ->)]; auto. right.
  destruct (registered_only _ _ _ _ _ _ Hx) as (id & Hr & Hd). eauto.
Qed.
Print Assumptions C28_only_reachable_registered.

Example C28_nontrivial :
  at_home shop_env 0 /\ at_home shop_env 1 /\ ~ at_home shop_env 2 /\
  reach shop_env true (GPointer (GNamed 0)) (GNamed 1) /\
  exists l r, TypeResult 9 shop_env true (Some "shop") "" (GPointer (GNamed 0)) = (l, Ok r) /\
    map (fun c => (f_package c, f_name c)) (register [] l) = [("shop/tags", "Tag"); ("shop/types", "Item")].
Proof.
  split; [split; [discriminate|reflexivity]|]. split; [split; [discriminate|reflexivity]|].
  split; [intros [_ H]; discriminate|]. split.
  - eapply Relation_Operators.rt1n_trans; [apply part_pointer|].
    eapply Relation_Operators.rt1n_trans; [eapply part_named; reflexivity|].
    eapply Relation_Operators.rt1n_trans; [apply (part_field _ _ _ (gf "Tags" (GSlice (GNamed 1)))); simpl; auto|].
    eapply Relation_Operators.rt1n_trans; [apply part_slice|]. constructor.
  - eexists _, _. split; vm_compute; reflexivity.
Qed.

(** C29.  Full claim refuted: the elements of a slice of slices are not recorded. *)
Definition error_env : TypeEnv := env_of [] no_decls.
Theorem C29_element_types_recorded_refuted :
  exists e1 e2 l1 r1 l2 r2, e1 <> e2 /\
    TypeResult 9 error_env true (Some "m") "" (GSlice (GSlice e1)) = (l1, Ok r1) /\
    TypeResult 9 error_env true (Some "m") "" (GSlice (GSlice e2)) = (l2, Ok r2) /\
    ParseResultToField r1 = ParseResultToField r2.
Proof.
  exists tstring, tint. eexists _, _, _, _. split; [discriminate|].
  split; [vm_compute; reflexivity|]. split; [vm_compute; reflexivity|]. reflexivity.
Qed.
Print Assumptions C29_element_types_recorded_refuted.

(** Nor can a type be told from a built-in one when it has the name of one: its package is not
    recorded.  Here a struct type called file. *)
Theorem C29_own_type_recorded_refuted :
  exists env t l r, reach env true t (GNamed 0) /\ t = GNamed 0 /\ te_pkg env 0 = Some "m" /\
    at_home env 0 /\ TypeResult 9 env true (Some "m") "" t = (l, Ok r) /\
    f_package (ParseResultToField r) = "" /\
    mapFieldToSchema [] "json" (ParseResultToField r) = Some (typeSchema "string" "binary").
Proof.
  exists (env_of [(Some "m", "file", GStruct [gf "Name" tstring], "")] no_decls), (GNamed 0).
  eexists _, _. split; [constructor|]. split; [reflexivity|]. split; [reflexivity|].
  split; [split; [discriminate|reflexivity]|]. split; [vm_compute; reflexivity|].
  split; reflexivity.
Qed.
Print Assumptions C29_own_type_recorded_refuted.

(** An array, unlike a slice, has no schema of its own. *)
Theorem C29_array_has_schema_refuted :
  exists t l r names, TypeResult 9 error_env true (Some "m") "" t = (l, Ok r) /\
    makeCollisionSafeNames plain_orders (register [] l) [] = Ok names /\
    mapFieldToSchema names "json" (ParseResultToField r) = None.
Proof.
  exists (GArray 4 tint). eexists _, _, _. split; [vm_compute; reflexivity|].
  split; vm_compute; reflexivity.
Qed.
Print Assumptions C29_array_has_schema_refuted.

(** What holds: where the element is, behind pointers, a built-in type or a type of a package
    that does not have the name of a built-in one, the field is exactly this. *)
Theorem C29_value_field_partial : forall env t n p fuel add pkg l r,
  elem_of env t n p -> TypeResult fuel env add pkg "" t = (l, Ok r) ->
  ParseResultToField r = mkField p n "" [] false false "" "" 0 "" "" "" [] [] [] "".
Proof. exact field_value. Qed.
Print Assumptions C29_value_field_partial.
Theorem C29_slice_field_partial : forall env t n p fuel add pkg l r,
  elem_of env t n p -> TypeResult fuel env add pkg "" (GSlice t) = (l, Ok r) ->
  ParseResultToField r = mkField p "slice" "" [] false false n "" 0 "" "" "" [] [] [] "".
Proof. exact field_slice. Qed.
Print Assumptions C29_slice_field_partial.
Theorem C29_array_field_partial : forall env t n p len fuel add pkg l r,
  elem_of env t n p -> TypeResult fuel env add pkg "" (GArray len t) = (l, Ok r) ->
  exists q, ParseResultToField r = mkField q "array" "" [] false false "" n len "" "" "" [] [] [] "" /\
    (~ In n AcceptedTypes -> q = p).
Proof. exact field_array. Qed.
Print Assumptions C29_array_field_partial.
Theorem C29_map_field_partial : forall env k kn kp t n p fuel add pkg l r,
  elem_of env k kn kp -> elem_of env t n p -> TypeResult fuel env add pkg "" (GMap k t) = (l, Ok r) ->
  ParseResultToField r = mkField p "map" "" [] false false "" "" 0 kp kn n [] [] [] "".
Proof. exact field_map. Qed.
Print Assumptions C29_map_field_partial.

(** So the schema refers to the element's component. *)
Theorem C29_schema_refers_to_element_partial : forall env t n p fuel add pkg names bt ref,
  elem_of env t n p -> ~ In n AcceptedTypes -> makeComponentRef names bt n p = Some ref ->
  (forall l r, TypeResult fuel env add pkg "" t = (l, Ok r) ->
     mapFieldToSchema names bt (ParseResultToField r) = Some (refSchema ref)) /\
  (forall l r, TypeResult fuel env add pkg "" (GSlice t) = (l, Ok r) ->
     exists s, mapFieldToSchema names bt (ParseResultToField r) = Some s /\ s_items s = Some (refSchema ref)) /\
  (forall l r k kn kp, elem_of env k kn kp -> TypeResult fuel env add pkg "" (GMap k t) = (l, Ok r) ->
     exists s, mapFieldToSchema names bt (ParseResultToField r) = Some s /\ s_addl s = Some (refSchema ref)).
Proof.
  intros env t n p fuel add pkg names bt ref He Hn Href. apply accepted_false in Hn.
  split; [|split].
  - intros l r E. rewrite (field_value _ _ _ _ _ _ _ _ _ He E). unfold mapFieldToSchema. cbn [f_type f_package].
    rewrite Hn. cbn [negb]. now rewrite Href.
  - intros l r E. rewrite (field_slice _ _ _ _ _ _ _ _ _ He E). unfold mapFieldToSchema.
    cbn [f_type f_package f_sliceType]. rewrite Hn, Href. cbn. eauto.
  - intros l r k kn kp Hk E. rewrite (field_map _ _ _ _ _ _ _ _ _ _ _ _ Hk He E). unfold mapFieldToSchema.
    cbn [f_type f_package f_mapValueType]. rewrite Hn, Href. cbn. eauto.
Qed.
Print Assumptions C29_schema_refers_to_element_partial.

Example C29_nontrivial :
  elem_of shop_env (GPointer (GNamed 0)) "Item" "shop/types" /\ elem_of shop_env tstring "string" "" /\
  (exists l r, TypeResult 9 shop_env true (Some "shop") "" (GMap tstring (GPointer (GNamed 0))) = (l, Ok r) /\
     exists names, makeCollisionSafeNames plain_orders (register [] l) [] = Ok names /\
       makeComponentRef names "json" "Item" "shop/types" = Some "#/components/schemas/types.Item").
Proof.
  split; [|split].
  - constructor. apply elem_named; [reflexivity|]. apply accepted_false. reflexivity.
  - constructor. apply accepted_spec. reflexivity.
  - eexists _, _. split; [vm_compute; reflexivity|]. eexists. split; vm_compute; reflexivity.
Qed.

(** C53.  Full claim refuted: iota.
      type Color int; const ( Red Color = iota; Green ) *)
Theorem C53_enum_values_complete_refuted :
  exists floatOK k name files, enum_values floatOK k name files <> values_of name (declared files).
Proof.
  exists (fun _ => true), KInt, "Color",
    [[DGen true [mkVS (TxIdent "Color") [VOther] [("Color", EInt 0)];
                 mkVS TxNone [] [("Color", EInt 1)]]]].
  vm_compute. discriminate.
Qed.
Print Assumptions C53_enum_values_complete_refuted.
(** Nor are the recorded values always values of constants: const Mode Perm = 0644 is octal. *)
Theorem C53_enum_values_sound_refuted :
  exists floatOK k name files v, In v (enum_values floatOK k name files) /\
    declared files = [(name, EInt 420)] /\ ~ In v (values_of name (declared files)).
Proof.
  exists (fun _ => true), KInt, "Perm",
    [[DGen true [mkVS (TxIdent "Perm") [VLit "0644"] [("Perm", EInt 420)]]]], (EInt 644).
  split; [vm_compute; auto|]. split; [reflexivity|]. vm_compute. intros [H|[]]. discriminate.
Qed.
Print Assumptions C53_enum_values_sound_refuted.

(** What holds: constants that spell out their type and are given by decimal numbers, floats or
    interpreted strings without escapes are all recorded, in order, and nothing else. *)
Theorem C53_enum_values_partial : forall floatOK k name files, plain_consts floatOK k name files ->
  enum_values floatOK k name files = values_of name (declared files).
Proof. exact enum_plain. Qed.
Print Assumptions C53_enum_values_partial.

(** And they are what the registered component carries. *)
Theorem C53_component_enum_values_partial : forall fuel env pkg id b k p l r,
  TypeResult fuel env true pkg "" (GNamed id) = (l, Ok r) ->
  te_under env id = GBasic b k -> te_pkg env id = Some p -> p <> "" -> te_name env id <> "" ->
  plain_consts (te_floatOK env) k (te_name env id) (te_decls env p) ->
  exists c, register [] l = [c] /\ f_package c = p /\ f_name c = te_name env id /\ f_type c = b /\
    f_enum c = values_of (te_name env id) (declared (te_decls env p)).
Proof.
  intros fuel env pkg id b k p l r E Hu Hp Hp0 Hn Hpl.
  destruct fuel as [|fuel]; [discriminate|]. cbn [TypeResult] in E. rewrite Hp, Hu in E.
  wsplit. match goal with H : ([_], Ok tt) = _ |- _ => injection H as <- <- end.
  destruct fuel as [|fuel]; [discriminate|].
  match goal with H : TypeResult _ _ _ _ _ (GBasic _ _) = _ |- _ => cbn [TypeResult] in H; rename H into W0 end.
  wsplit. assert (Hn' := Hn). apply String.eqb_neq in Hn'.
  match goal with H : (if String.eqb (te_name env id) "" then _ else _) = Ok _ |- _ => rewrite Hn' in H; rename H into Q end.
  simpl in Q. destruct (te_loads env p); [|discriminate]. injection Q as <-.
  match goal with H : finish (te_name env id) _ = Ok _ |- _ => apply finish_ok in H; destruct H as [-> _] end.
  rewrite Hn' in *. subst. cbn [app].
  match goal with |- context [register [] [?x]] => set (x0 := x) end.
  assert (K : exists d, ParseResultToField x0 =
    mkField p b (te_name env id) (enum_values (te_floatOK env) k (te_name env id) (te_decls env p))
            false false "" "" 0 "" "" "" [] [] [] d).
  { eexists. rewrite parse_eq. unfold needs_package, x0. cbn -[IsAcceptedType]. rewrite Hn'. cbn -[IsAcceptedType].
    rewrite orb_true_r. reflexivity. }
  destruct K as [d K]. unfold register, addComponent. cbn [fold_left]. rewrite K. cbn [f_package].
  apply String.eqb_neq in Hp0. rewrite Hp0.
  eexists. split; [reflexivity|]. cbn. repeat split. now rewrite (enum_plain _ _ _ _ Hpl).
Qed.
Print Assumptions C53_component_enum_values_partial.

(** type Color string; const ( Red Color = <Red>; Other = 1 ); const Green, Blue Color = <G>, <B> *)
Definition q (s : string) : string := String dquote (s ++ String dquote "").
Definition colors : list (list decl) :=
  [[DFunc; DGen true [mkVS (TxIdent "Color") [VLit (q "Red")] [("Color", EStr "Red")];
                      mkVS TxNone [VLit "1"] [("int", EInt 1)]]];
   [DGen false [mkVS (TxIdent "Color") [VLit (q "x")] []];
    DGen true [mkVS (TxIdent "Color") [VLit (q "G"); VLit (q "B")] [("Color", EStr "G"); ("Color", EStr "B")]]]].
Example C53_nontrivial : plain_consts (fun _ => true) KString "Color" colors /\
  values_of "Color" (declared colors) = [EStr "Red"; EStr "G"; EStr "B"].
Proof.
  split; [|reflexivity]. intros file specs v Hf Hs Hv.
  assert (L : forall s, has_char dquote s = false -> has_char "\" s = false ->
              lit_denotes (fun _ => true) KString (q s) (EStr s)).
  { intros s H1 H2. exists s. auto. }
  destruct Hf as [<-|[<-|[]]]; simpl in Hs.
  - destruct Hs as [Hs|[Hs|[]]]; [discriminate|]. injection Hs as <-.
    destruct Hv as [<-|[<-|[]]].
    + left. split; [reflexivity|]. constructor; [exists (q "Red"); split; [reflexivity|split; [reflexivity|apply L; reflexivity]]|constructor].
    + right. split; [discriminate|]. constructor; [discriminate|constructor].
  - destruct Hs as [Hs|[Hs|[]]]; [discriminate|]. injection Hs as <-.
    destruct Hv as [<-|[]].
    left. split; [reflexivity|]. constructor; [exists (q "G"); split; [reflexivity|split; [reflexivity|apply L; reflexivity]]|constructor; [exists (q "B"); split; [reflexivity|split; [reflexivity|apply L; reflexivity]]|constructor]].
Qed.

(** C54.  Full claim refuted: text that itself begins with two slashes loses them. *)
Theorem C54_comment_text_refuted : exists text, ~ trimmed text (FormatDoc text).
Proof.
  exists "// old name". intros (l & r & E & (xs & -> & Hxs) & _ & _).
  change (FormatDoc "// old name") with "old name" in E.
  destruct xs as [|x xs]; [discriminate|]. rewrite concat_cons in E. inversion Hxs as [|? ? Hx _]; subst.
  repeat (destruct Hx as [<-|Hx]; [vm_compute in E; discriminate|]). destruct Hx.
Qed.
Print Assumptions C54_comment_text_refuted.

Theorem C54_comment_text_partial : forall text, has_prefix "//" text = false ->
  trimmed text (FormatDoc text).
Proof.
  intros text H. unfold FormatDoc, TrimPrefix. rewrite H. apply TrimSpace_trimmed.
Qed.
Print Assumptions C54_comment_text_partial.

(** A component carries the comment of its type. *)
Theorem C54_component_comment : forall fuel env pkg name t c,
  In c (register [] (fst (TypeResult fuel env true pkg name t))) ->
  exists id, reach env true t (GNamed id) /\ f_doc c = FormatDoc (te_doc env id).
Proof.
  intros fuel env pkg name t c H. apply register_from in H. destruct H as [[]|(x & Hx & ->)].
  destruct (registered_only _ _ _ _ _ _ Hx) as (id & Hr & Hd). exists id. split; auto.
  now apply definition_doc.
Qed.
Print Assumptions C54_component_comment.

(** A field carries the comment found at its position in the package of the field's type. *)
Theorem C54_field_comment : forall fuel env add pkg name fs l r f,
  TypeResult fuel env add pkg name (GStruct fs) = (l, Ok r) -> In f fs -> gf_exported f = true ->
  exists x, In (gf_name f, x) (f_structFields (ParseResultToField r)) /\
    f_doc x = match described_in env pkg (gf_type f) with
              | None => ""
              | Some p => match gf_at f p with Some (NField _ d) => FormatDoc d | _ => "" end
              end.
Proof. exact field_docs. Qed.
Print Assumptions C54_field_comment.

(** So the comment on a field of type error is never carried over. *)
Theorem C54_field_comment_refuted : exists env fs f l r x doc,
  TypeResult 9 env true (Some "m") "" (GStruct fs) = (l, Ok r) /\ fs = [f] /\
  (forall p, gf_at f p = Some (NField ["Cause"] doc)) /\ FormatDoc doc = "why" /\
  f_structFields (ParseResultToField r) = [("Cause", x)] /\ f_doc x = "".
Proof.
  set (f := mkGF "Cause" true false "" (GNamed 0) (fun _ => Some (NField ["Cause"] "why"))).
  exists error_env, [f], f. eexists _, _, _, "why".
  split; [vm_compute; reflexivity|]. split; [reflexivity|]. split; [reflexivity|].
  split; [reflexivity|]. split; [cbn; reflexivity|]. reflexivity.
Qed.
Print Assumptions C54_field_comment_refuted.

Example C54_nontrivial :
  has_prefix "//" (bytes [32; 65; 32; 112; 101; 116; 46; 10]) = false /\
  FormatDoc (bytes [32; 65; 32; 112; 101; 116; 46; 10]) = "A pet." /\
  (exists l r, TypeResult 9 shop_env true (Some "shop") "" (GNamed 0) = (l, Ok r) /\
     map f_doc (register [] l) = [""; "An item."]).
Proof.
  split; [reflexivity|]. split; [reflexivity|]. eexists _, _. split; vm_compute; reflexivity.
Qed.

(** C55.  Full claim refuted: a struct that embeds a type of its own package; the position of the
    embedded field is that of an ast.Field without names. *)
Theorem C55_type_analysis_no_panic_refuted : exists env t,
  finite_type env true t /\ (forall p, te_loads env p = true) /\
  forall fuel, 9 <= fuel -> snd (TypeResult fuel env true (Some "m") "" t) = Panic.
Proof.
  set (f := mkGF "Base" true true "" (GNamed 1) (fun _ => Some (NField [] ""))).
  set (env := env_of [(Some "m", "Pet", GStruct [f], ""); (Some "m", "Base", GStruct [gf "ID" tstring], "")] no_decls).
  exists env, (GNamed 0).
  assert (Fs : finite_type env true tstring) by (constructor; intros t' H; inversion H).
  assert (F1 : finite_type env true (GNamed 1)).
  { constructor. intros t' H. inversion H; subst. constructor. intros t'' H'. inversion H'; subst.
    match goal with A : In _ _ |- _ => destruct A as [<-|[]] end. exact Fs. }
  split.
  { constructor. intros t' H. inversion H; subst. constructor. intros t'' H'. inversion H'; subst.
    match goal with A : In _ _ |- _ => destruct A as [<-|[]] end. exact F1. }
  split; [reflexivity|]. intros fuel Hf.
  rewrite (type_mono 9 fuel); [reflexivity|exact Hf|]. vm_compute. discriminate.
Qed.
Print Assumptions C55_type_analysis_no_panic_refuted.

(** What holds: where packages load, all types are describable and no field without a name is found
    by position, the analysis neither fails nor panics. *)
Theorem C55_analysable_types_succeed_partial : forall fuel env pkg t, analysable env pkg t ->
  (exists l r, TypeResult fuel env true (Some pkg) "" t = (l, Ok r)) \/
  snd (TypeResult fuel env true (Some pkg) "" t) = OutOfFuel.
Proof. exact analysable_fine. Qed.
Print Assumptions C55_analysable_types_succeed_partial.

(** The analysis of a finite analysable type succeeds. *)
Theorem C55_finite_analysable_types_succeed_partial : forall env pkg t,
  analysable env pkg t -> finite_type env true t ->
  exists l r n, forall fuel, n <= fuel -> TypeResult fuel env true (Some pkg) "" t = (l, Ok r).
Proof.
  intros env pkg t Ha Hf. destruct (finite_terminates _ _ _ Hf) as [n Hn].
  destruct (analysable_fine n env pkg t Ha) as [(l & r & E)|E]; [|exfalso; eapply Hn; eauto].
  exists l, r, n. intros fuel Hle. rewrite (type_mono n fuel); auto.
Qed.
Print Assumptions C55_finite_analysable_types_succeed_partial.

Example C55_nontrivial : analysable node_env "m" (GNamed 0) /\ analysable shop_env "shop" (GSlice tstring) /\
  finite_type shop_env true (GSlice tstring).
Proof.
  split; [exact node_analysable|]. split.
  - split; [reflexivity|]. intros t' H. inversion H as [|y z Hp Hr]; subst; [exact I|].
    inversion Hp; subst. inversion Hr as [|y' z' Hp' Hr']; subst; [discriminate|]. inversion Hp'.
  - constructor. intros t' H; inversion H; subst. constructor. intros t'' H'; inversion H'.
Qed.
