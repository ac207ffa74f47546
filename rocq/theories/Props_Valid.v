(** Property theorems about the validity of documents: C76. *)
From Coq Require Import List String Ascii Bool ZArith Arith Lia Permutation.
From Verif Require Import BaseStr BaseMap M_Types M_Paths M_Tags M_OpenAPI M_Json S_Collect S_Tags S_Names S_Paths S_OpenAPI S_Cache S_Json S_Valid
  P_Paths P_FS P_Schema P_OpenAPI P_JsonDoc P_Built P_Valid Props_Names Props_Paths Props_OpenAPI Props_Json.
Import ListNotations.
Local Open Scope string_scope.

(** ** C76: a document in JSON is a valid OpenAPI 3.0 document *)

(** Full claim: the bytes written for a document are JSON that is valid after the OpenAPI specification 3.0, whatever
    the routes and types.  Proved for sound routes, components and mappings (S_Valid.v) whose references resolve (C18);
    below, what goes wrong without: each of the conditions on routes is needed. *)
Theorem C76_valid_partial : forall float o custom config routes components d names,
  valid_orders o -> generated o custom config routes components [] d names ->
  parsed_components components -> unambiguous components -> NoDup (map comp_key components) -> (forall c, In c components -> covered custom c) ->
  sound_mapping custom -> Forall sound_component components -> sound_routes routes ->
  valid_openapi (document_json float d).
Proof. intros. eapply document_valid; eauto. Qed.
Print Assumptions C76_valid_partial.

(** ... and so are the bytes. *)
Theorem C76_text_partial : forall short float o custom config routes components d names,
  valid_orders o -> generated o custom config routes components [] d names ->
  parsed_components components -> unambiguous components -> NoDup (map comp_key components) -> (forall c, In c components -> covered custom c) ->
  sound_mapping custom -> Forall sound_component components -> sound_routes routes ->
  (forall t, number (float t)) -> Forall utf8 (document_texts d) ->
  exists v, json (document_text short float d) v /\ (forall v', json (document_text short float d) v' -> v' = v) /\ valid_openapi v.
Proof.
  intros short float o custom config routes components d names VO G PC UA ND CO SM SC SR Hf U. exists (document_json float d).
  assert (J : json (document_text short float d) (document_json float d)) by (apply P_Json.value_written, document_sound; auto).
  split; [exact J|]. split; [intros v' J'; eapply P_Json.one_value; eauto|]. eapply C76_valid_partial; eauto.
Qed.
Print Assumptions C76_text_partial.

(** The conditions on the path of a route hold of every path gin takes that has no catch-all parameter, and no
    parameter twice: the parameters are those ExtractParamsFromPath finds. *)
Theorem C76_paths_partial : forall r, gin_path (rt_path r) -> begins_with_slash (rt_path r) -> has_char "*" (rt_path r) = false ->
  rt_pathParams r = ExtractParamsFromPath (rt_path r) -> NoDup (map p_name (rt_pathParams r)) ->
  begins_with_slash (openapi_path (rt_path r)) /\ named_params (rt_pathParams r) /\ templates_declared (openapi_path (rt_path r)) (rt_pathParams r).
Proof.
  intros r GP (t & Et) NS EP ND. split; [|split].
  - rewrite Et. unfold openapi_path, MapPathParams, regex_pieces. cbn. eexists. reflexivity.
  - split; auto. rewrite EP. destruct (extract_exact (rt_path r)) as (ps & H & ->). clear - H. induction H as [|lit m name seg segs ps (_ & _ & Hn & _) _ IH|]; cbn; auto.
    constructor; auto. repeat split; auto. discriminate.
  - rewrite EP. now apply C04_colon_paths_declared_partial.
Qed.
Print Assumptions C76_paths_partial.

(** Conversely: in a valid document there is a route, every route answers, the templates of its path are its path
    parameters, no two routes differ in the names of path parameters only, and no two have the same operation id. *)
Theorem C76_needed : forall float o custom config routes components names0 d names,
  valid_orders o -> generated o custom config routes components names0 d names -> distinct_routes routes -> (forall r, In r routes -> gin_path (rt_path r)) ->
  (forall r, In r routes -> In (rt_method r) openapi_methods /\ rt_method r <> "TRACE") ->
  valid_openapi (document_json float d) ->
  routes <> [] /\
  (forall r, In r routes -> rt_returns r <> [] /\
     (Forall unbound (rt_pathParams r) -> forall n, In n (templates (openapi_path (rt_path r))) <-> In n (map p_name (rt_pathParams r)))) /\
  (forall r r', In r routes -> In r' routes -> shape (openapi_path (rt_path r)) = shape (openapi_path (rt_path r')) -> rt_path r = rt_path r') /\
  (forall r r', In r routes -> In r' routes -> rt_operationId r = rt_operationId r' -> rt_operationId r <> "" -> r = r').
Proof.
  intros float o custom config routes components names0 d names VO G DR GP ME V. apply document_inv in V as (V1 & V2 & V3 & V4 & _).
  assert (Pk : forall p, In p (map fst (d_paths d)) <-> exists r, In r routes /\ openapi_path (rt_path r) = p).
  { intros p. destruct (generated_inv _ _ _ _ _ _ _ _ G) as (c & _ & _ & Ep & _). rewrite Ep.
    assert (H := add_paths_key (typeMapping custom) o names components routes 0 [] p). unfold mkeys in H. rewrite H. cbn. intuition. }
  assert (Op : forall r, In r routes -> exists item i, In (openapi_path (rt_path r), item) (d_paths d) /\ In (rt_method r) openapi_methods /\
     slot (rt_method r) item = Some (op_at (typeMapping custom) o names components i r)).
  { intros r Ir. destruct (ME r Ir) as (Hm & Ht). destruct (C20_routes_documented_partial _ _ _ _ _ _ _ _ _ G DR GP Ir Hm Ht) as (op & Hd).
    destruct (documents_op_at _ _ _ _ _ _ _ _ _ _ G DR GP Ir (proj1 Hd)) as (i & ->). destruct Hd as ((item & Hl & Hs) & _). exists item, i. split; [now apply mlookup_In|auto]. }
  split; [|split; [|split]].
  - intros E. subst routes. destruct (d_paths d) as [|kp l] eqn:El; [auto|]. destruct (Pk (fst kp)) as (X & _). destruct X as (r & [] & _). left. reflexivity.
  - intros r Ir. destruct (Op r Ir) as (item & i & I & Im & Es). assert (X := V2 _ _ _ _ I Im Es). apply operation_inv in X as (A & _ & _ & T & _). split.
    + intros E. apply A. unfold op_at, operationOf. cbn [op_responses]. now rewrite E.
    + intros U n. rewrite <- T. clear T A. unfold op_at, operationOf. cbn [op_parameters].
      set (site := ["route"; itoa (Z.of_nat i)]). set (l := (_ ++ _ ++ _)%list).
      assert (Pm : Permutation l (o_sort o site l)) by apply VO. assert (Pi := Permutation_map id_of Pm).
      assert (L : In (n, "path") (map id_of l) <-> In n (map p_name (rt_pathParams r))).
      { unfold l. rewrite !map_app, !in_app_iff.
        assert (E : map id_of (simpleParams names URIBindingTag "path" (rt_pathParams r)) = map (fun p => (p_name p, "path")) (rt_pathParams r)).
        { rewrite ids_entries, (simple_params_exact names URIBindingTag "path" _ U), map_map. reflexivity. }
        rewrite E. split.
        - intros [I1|[I1|I1]].
          + apply in_map_iff in I1 as (p & Ep & I1). injection Ep as <-. now apply in_map.
          + apply in_map_iff in I1 as (q & Eq & I1). apply P_More.simple_style in I1 as (_ & I1); [|discriminate]. unfold id_of in Eq. congruence.
          + apply in_map_iff in I1 as (q & Eq & I1). apply P_More.query_params_of in I1 as (p & j & _ & I1). apply P_More.query_style in I1 as (_ & I1 & _). unfold id_of in Eq. congruence.
        - intros I1. left. apply in_map_iff in I1 as (p & <- & I1). now apply (in_map (fun p => (p_name p, "path"))). }
      rewrite <- L. split; intros H; [eapply Permutation_in; [apply Permutation_sym|]; eauto|eapply Permutation_in; eauto].
  - intros r r' Ir Ir' E. apply C03_documented_paths_distinct; auto. apply V3; auto; apply Pk; eauto.
  - intros r r' Ir Ir' E N. destruct (Op r Ir) as (item & i & I & Im & Es). destruct (Op r' Ir') as (item' & i' & I' & Im' & Es').
    destruct (V4 _ _ _ _ _ _ _ _ I Im Es I' Im' Es' E N) as (A & B). apply C03_documented_paths_distinct in A; auto.
    apply (nodup_map_eq _ routes r r' DR Ir Ir'). congruence.
Qed.
Print Assumptions C76_needed.

(** ** A case *)
Definition str (name : string) : Param := mkParam name (field_of_type "string") false false false false.
Definition C76_get := mkRoute "main.get" "" 0 "GET" "/u/:id" (ExtractParamsFromPath "/u/:id") [str "a"; mkParam "b" (field_of_type "int") false true false false] []
  [mkRet 200 "application/json" (named_field "m/p" "T"); mkRet 404 "application/json" (field_of_type "string")] "Finds." "main.get" [str "X-Key"] [str "X-Age"].
Definition C76_post := mkRoute "main.post" "" 0 "POST" "/u" [] [mkParam "" (named_field "m/p" "T") false false false true]
  [mkBody "" (named_field "m/p" "T") "application/json" true false false false] [mkRet 201 "" (field_of_type "nil")] "" "main.post" [] [].
(** Structs without structs inside. *)
Lemma flat_sound c : sound_node c -> Forall (fun kf => sound_node (snd kf) /\ f_structFields (snd kf) = []) (f_structFields c) ->
  Forall (fun kf => Forall (fun tb => bt_name (snd tb) <> "") (f_bindingTags (snd kf))) (f_structFields c) ->
  path_chars (f_package c) -> key_chars (f_name c) -> sound_component c.
Proof.
  intros Sc Sf Nb Pp Kn. rewrite Forall_forall in *. split; auto.
  - intros g P. destruct P as [|f k h I P]; [exact Sc|]. destruct (Sf _ I) as (Sh & E). cbn [snd] in *. destruct P as [|f' k' h' I' _]; [exact Sh|]. rewrite E in I'. destruct I'.
  - intros n (k & f & b & I & _ & B & _ & <-). specialize (Nb _ I). cbn [snd] in Nb. rewrite Forall_forall in Nb. destruct B as [(B & _)|(_ & B & _)]; exact (Nb _ B).
Qed.
Ltac plain_node := split; try discriminate; intros E; discriminate E.
Example C76_nontrivial :
  valid_orders plain_orders /\ parsed_components C18_good /\ unambiguous C18_good /\ NoDup (map comp_key C18_good) /\
  (forall c, In c C18_good -> covered [("m/p.Other", mkTF "string" "")] c) /\
  sound_mapping [("m/p.Other", mkTF "string" "")] /\ Forall sound_component C18_good /\ sound_routes [C76_get; C76_post] /\
  exists d names, generated plain_orders [("m/p.Other", mkTF "string" "")] cfg [C76_get; C76_post] C18_good [] d names /\
    map fst (d_paths d) = ["/u"; "/u/{id}"] /\ map fst (d_schemas d) = ["p.Base"; "p.form.T"; "p.json.T"] /\ Forall utf8 (document_texts d).
Proof.
  destruct C18_nontrivial as (PC & UA & ND & UN & _).
  split; [apply plain_orders_valid|]. split; [exact PC|]. split; [exact UA|]. split; [exact ND|]. split; [intros c I; apply uniform_covered; auto|].
  split; [intros k tf [E|[]]; injection E as <- <-; split; [cbn; tauto|discriminate]|].
  split.
  { assert (K : forall c, In c C18_good -> path_chars (f_package c) /\ key_chars (f_name c)).
    { intros c [<-|[<-|[]]]; cbn; unfold path_char, key_char; cbn; repeat split; lia || (right; reflexivity) || (left; lia) || tauto. }
    apply Forall_forall. intros c I. apply flat_sound; try (now apply K).
    - destruct I as [<-|[<-|[]]]; plain_node.
    - destruct I as [<-|[<-|[]]]; cbn [f_structFields scomp]; repeat constructor; try discriminate.
    - destruct I as [<-|[<-|[]]]; cbn [f_structFields scomp]; repeat constructor; discriminate. }
  split.
  { assert (S : Forall sound_route [C76_get; C76_post]).
    { destruct (C76_paths_partial C76_get) as (A & B & C); try reflexivity; [repeat constructor|eexists; reflexivity|repeat constructor; intros []|].
      constructor; [split; auto|constructor; [split|constructor]].
      - split; repeat constructor; try discriminate. intros [].
      - left. split; repeat constructor; try discriminate; cbn; intuition discriminate.
      - repeat constructor; discriminate.
      - constructor.
      - repeat constructor; cbn; try discriminate; lia.
      - discriminate.
      - eexists. vm_compute. reflexivity.
      - split; constructor.
      - split; [reflexivity|constructor].
      - split; constructor.
      - right. eexists. split; [reflexivity|]. split; [reflexivity|]. split; discriminate.
      - constructor.
      - repeat constructor; discriminate.
      - repeat constructor; cbn; try discriminate; lia.
      - discriminate. }
    split; [discriminate|exact S| |].
    - intros r r' [<-|[<-|[]]] [<-|[<-|[]]] E; vm_compute in E; try discriminate E; reflexivity.
    - intros r r' [<-|[<-|[]]] [<-|[<-|[]]] E; try discriminate E; split; reflexivity. }
  do 2 eexists. split; [eexists; vm_compute; reflexivity|]. split; [vm_compute; reflexivity|]. split; [vm_compute; reflexivity|].
  vm_compute document_texts. repeat (constructor; [latin|]). constructor.
Qed.

(** ** Documents that are not valid *)

Definition invalid (routes : list Route) (components : list Field) : Prop :=
  exists d names, generated plain_orders [] cfg routes components [] d names /\ forall float, ~ valid_openapi (document_json float d).
Definition get (path : string) (params query headers : list Param) (returns : list ReturnType) : Route :=
  mkRoute ("GET" ++ path) "" 0 "GET" path params query [] returns "" ("GET" ++ path) headers [].
Definition ok : list ReturnType := [mkRet 200 "" (field_of_type "nil")].
Ltac computed V1 V2 V3 V4 V5 := do 2 eexists; split; [eexists; vm_compute; reflexivity|]; intros float V; apply document_inv in V; destruct V as (V1 & V2 & V3 & V4 & V5).
Ltac the_get V2 op := pose proof (V2 _ _ "GET" _ (or_introl eq_refl) (or_introl eq_refl) eq_refl) as op; apply operation_inv in op.

(** No routes: no paths, which are required. *)
Theorem C76_no_routes_refuted : invalid [] [].
Proof. computed V1 V2 V3 V4 V5. now apply V1. Qed.
Print Assumptions C76_no_routes_refuted.
(** A handler that never answers: no responses. *)
Theorem C76_silent_refuted : invalid [get "/a" [] [] [] []] [].
Proof. computed V1 V2 V3 V4 V5. the_get V2 X. destruct X as (X & _). now apply X. Qed.
Print Assumptions C76_silent_refuted.
(** A query parameter read twice: two parameters of the same name and place. *)
Theorem C76_twice_refuted : invalid [get "/a" [] [str "q"; str "q"] [] ok] [].
Proof. computed V1 V2 V3 V4 V5. the_get V2 X. destruct X as (_ & _ & X & _). vm_compute in X. inversion_clear X as [|? ? N _]. apply N. left. reflexivity. Qed.
Print Assumptions C76_twice_refuted.
(** Headers bound to a struct: a parameter without a name. *)
Theorem C76_nameless_refuted : 
  invalid [get "/a" [] [] [mkParam "" (named_field "m/p" "H") false false false true] ok] [scomp "m/p" "H" [tfield "string" "Key" "header:""X-Key"""]].
Proof. computed V1 V2 V3 V4 V5. the_get V2 X. destruct X as (_ & X & _). inversion_clear X as [|? ? (N & _) _]. now apply N. Qed.
Print Assumptions C76_nameless_refuted.
(** Lists of lists: an array without items. *)
Definition slices : Field := mkField "" "slice" "" [] false false "slice" "" 0 "" "" "" [] [] [] "".
Theorem C76_lists_refuted : invalid [get "/a" [] [] [] [mkRet 200 "application/json" slices]] [].
Proof.
  computed V1 V2 V3 V4 V5. the_get V2 X. destruct X as (_ & _ & _ & _ & X). specialize (X _ _ _ _ (or_introl eq_refl) (or_introl eq_refl)).
  eapply items_inv in X; [|reflexivity|reflexivity]. apply array_inv in X; [now apply X|reflexivity|reflexivity].
Qed.
Print Assumptions C76_lists_refuted.
(** A catch-all parameter: the template is called path* and the parameter path. *)
Theorem C76_catch_all_refuted : invalid [get "/files/*path" (ExtractParamsFromPath "/files/*path") [] [] ok] [].
Proof.
  computed V1 V2 V3 V4 V5. the_get V2 X. destruct X as (_ & _ & _ & X & _). specialize (X "path"). vm_compute in X. destruct X as (X & _).
  destruct X as [X|[]]; [left; reflexivity|discriminate X].
Qed.
Print Assumptions C76_catch_all_refuted.
(** A type whose name is not in ASCII. *)
Definition umlaut : string := String (ascii_of_nat 195) (String (ascii_of_nat 156) "ser").
Theorem C76_umlaut_refuted : invalid [get "/a" [] [] [] [mkRet 200 "application/json" (named_field "m/p" umlaut)]] [scomp "m/p" umlaut [tfield "string" "X" ""]].
Proof.
  computed V1 V2 V3 V4 V5. specialize (V5 _ _ (or_introl eq_refl)). destruct V5 as (_ & V5). vm_compute in V5. destruct V5 as (_ & _ & V5 & _).
  unfold key_char, ord in V5. cbn in V5. repeat (destruct V5 as [V5|V5]; [lia || discriminate V5|]). discriminate V5.
Qed.
Print Assumptions C76_umlaut_refuted.
(** One handler for two routes: one operation id. *)
Theorem C76_same_handler_refuted :
  invalid [mkRoute "main.f" "" 0 "GET" "/a" [] [] [] ok "" "main.f" [] []; mkRoute "main.f" "" 0 "GET" "/b" [] [] [] ok "" "main.f" [] []] [].
Proof.
  computed V1 V2 V3 V4 V5. destruct (V4 _ _ "GET" _ _ _ "GET" _ (or_introl eq_refl) (or_introl eq_refl) eq_refl (or_intror (or_introl eq_refl)) (or_introl eq_refl) eq_refl) as (E & _);
    [reflexivity|discriminate|discriminate E].
Qed.
Print Assumptions C76_same_handler_refuted.
(** Paths that differ in the name of a parameter, which gin takes for different methods. *)
Theorem C76_twins_refuted :
  invalid [get "/a/:x" (ExtractParamsFromPath "/a/:x") [] [] ok; mkRoute "main.g" "" 0 "POST" "/a/:y" (ExtractParamsFromPath "/a/:y") [] [] ok "" "main.g" [] []] [].
Proof.
  computed V1 V2 V3 V4 V5. assert (X : "/a/{x}" = "/a/{y}"); [|discriminate X]. apply V3; [left; reflexivity|right; left; reflexivity|vm_compute; reflexivity].
Qed.
Print Assumptions C76_twins_refuted.
