(** C35 and C36: cleaning. *)
From Coq Require Import List String Ascii Bool ZArith Arith.
From Verif Require Import BaseStr BaseMap M_Types M_Tags M_OpenAPI S_Names M_TypeTrav S_OpenAPI M_Clean S_Clean P_Clean P_Schema.
Import ListNotations.
Local Open Scope string_scope.

(** ** C35 *)

(** [temp] is the import path of the temporary main package, such as m/.astra/astramain: it always has
    a slash (C52_import_path), so it is not main, time or empty. *)
Theorem C35_no_temporary_partial : forall temp components routes f,
  temp <> "main" ->
  result_field_no_header (cleanComponents temp components) (cleanRoutes temp routes) f -> ~ mentions temp f.
Proof.
  intros temp components routes f Hm [H|(r & Hr & H)].
  - apply in_map_iff in H as (g & <- & _). now apply clean_no_mention.
  - apply in_map_iff in Hr as (r0 & <- & _).
    destruct H as [p H|p H|b H|t H]; cbn in H; apply in_map_iff in H as (x & <- & _); now apply clean_no_mention.
Qed.
Print Assumptions C35_no_temporary_partial.

(** Missing from the full statement: the headers. *)
Definition tmain := "example.com/m/.astra/astramain".
Definition C35_hdr : Param := mkParam "" (mkField tmain "Auth" "" [] false false "" "" 0 "" "" "" [] [] [] "") false false false true.
Definition C35_component : Field :=
  mkField tmain "struct" "Auth" [] false false "" "" 0 "" "" ""
    [("Token", mkField "" "string" "" [] false false "" "" 0 "" "" "" [] (fst (ParseStructTag "Token" "header:""X-Token""")) [] "");
     ("Map", mkField tmain "map" "" [] false false "" "" 0 tmain "Key" "Auth" [] (fst (ParseStructTag "Map" "header:""X-Map""")) [] "")] [] [] "".
Definition C35_body : BodyParam :=
  mkBody "" (mkField tmain "Auth" "" [] false false "" "" 0 "" "" "" [] [] [] "") "application/json" false false false false.
Definition C35_route : Route :=
  mkRoute "main.get" "main.go" 10 "GET" "/a" [] [] [C35_body] [] "" "get" [C35_hdr] [].
Theorem C35_headers_refuted : exists temp components routes f,
  temp <> "main" /\
  result_field (cleanComponents temp components) (cleanRoutes temp routes) f /\ mentions temp f.
Proof.
  exists tmain, [C35_component], [C35_route], (p_field C35_hdr). split; [discriminate|]. split.
  - right. exists (cleanRoute tmain C35_route). split; [left; reflexivity|]. right. apply hf_request. left. reflexivity.
  - exists [], (p_field C35_hdr). split; [constructor|]. left. reflexivity.
Qed.
Print Assumptions C35_headers_refuted.
Example C35_nontrivial : mentions tmain C35_component /\
  In (b_field C35_body) (map b_field (rt_body C35_route)) /\ mentions tmain (b_field C35_body) /\
  map (fun c => map (fun kf => (f_package (snd kf), f_mapKeyPackage (snd kf))) (f_structFields c)) (cleanComponents tmain [C35_component])
    = [[("", ""); ("main", "main")]].
Proof.
  split; [|split; [left; reflexivity|split; [|vm_compute; reflexivity]]].
  - exists ["Map"]. eexists. split; [econstructor; [right; left; reflexivity|constructor]|]. right. reflexivity.
  - exists [], (b_field C35_body). split; [constructor|left; reflexivity].
Qed.

(** What this costs: a header struct of the main package is not documented, although its component
    is; the same struct in another package would be. *)
Theorem C35_main_header_lost_refuted : exists temp c r d cfg names op,
  f_package c = temp /\ f_name c = "Auth" /\ rt_reqHeaders r = [mkParam "" (mkField temp "Auth" "" [] false false "" "" 0 "" "" "" [] [] [] "") false false false true] /\
  buildDocument plain_orders [] (Some (mkConfig "" "" "" ("", "", "") ("", "") false "localhost" "/" 8000))
    (cleanRoutes temp [r]) (cleanComponents temp [c]) [] = Ok (d, cfg, names) /\
  mlookup "main.Auth" (d_schemas d) <> None /\
  mlookup "/a" (d_paths d) = Some (mkPath (Some op) None None None None None None None) /\ op_parameters op = [].
Proof.
  exists tmain, C35_component, C35_route. do 4 eexists. split; [reflexivity|]. split; [reflexivity|]. split; [reflexivity|].
  split; [vm_compute; reflexivity|]. split; [vm_compute; discriminate|]. split; [vm_compute; reflexivity|]. reflexivity.
Qed.
Print Assumptions C35_main_header_lost_refuted.

(** Nothing else changes.  Components and routes stay in place; in each field, at any depth, the
    packages read as they should and all else is as it was, up to substituted types ... *)
Theorem C35_only_packages : forall temp f p g',
  identifier_names f -> reaches (cleanField temp f) p g' ->
  exists g, reaches f p g /\
    reads_as temp (f_package g) (f_package g') /\ reads_as temp (f_mapKeyPackage g) (f_mapKeyPackage g') /\
    ((exists t, substituted g t /\ f_type g' = t /\ f_structFields g' = [] /\ f_sliceType g' = "" /\ f_mapValueType g' = "" /\
                f_enum g' = f_enum g /\ f_name g' = f_name g) \/
     ((forall t, ~ substituted g t) /\ same_but_packages temp g g')).
Proof. exact clean_field_forward. Qed.
Print Assumptions C35_only_packages.

(** ... and no field is lost, unless inside a substituted type. *)
Theorem C35_fields_kept : forall temp f p g,
  identifier_names f -> reaches f p g ->
  (forall p1 p2 h t, p = (p1 ++ p2)%list -> p2 <> [] -> reaches f p1 h -> ~ substituted h t) ->
  exists g', reaches (cleanField temp f) p g'.
Proof. intros temp f p g Hi H Hs. exists (cleanField temp g). now apply clean_field_backward. Qed.
Print Assumptions C35_fields_kept.

Definition field_cleaned (temp : string) (f g : Field) : Prop := g = cleanField temp f.
Definition param_cleaned (temp : string) (p q : Param) : Prop :=
  p_name q = p_name p /\ field_cleaned temp (p_field p) (p_field q) /\ p_isRequired q = p_isRequired p /\
  p_isArray q = p_isArray p /\ p_isMap q = p_isMap p /\ p_isBound q = p_isBound p.
Theorem C35_in_place : forall temp components routes,
  Forall2 (field_cleaned temp) components (cleanComponents temp components) /\
  Forall2 (fun r r' =>
    (rt_handler r', rt_file r', rt_line r', rt_method r', rt_path r', rt_doc r', rt_operationId r') =
    (rt_handler r, rt_file r, rt_line r, rt_method r, rt_path r, rt_doc r, rt_operationId r) /\
    rt_reqHeaders r' = rt_reqHeaders r /\ rt_respHeaders r' = rt_respHeaders r /\
    Forall2 (param_cleaned temp) (rt_pathParams r) (rt_pathParams r') /\
    Forall2 (param_cleaned temp) (rt_queryParams r) (rt_queryParams r') /\
    Forall2 (fun b b' => (b_name b', b_contentType b', b_isRequired b', b_isArray b', b_isMap b', b_isBound b') =
                         (b_name b, b_contentType b, b_isRequired b, b_isArray b, b_isMap b, b_isBound b) /\
                         field_cleaned temp (b_field b) (b_field b')) (rt_body r) (rt_body r') /\
    Forall2 (fun t t' => (r_status t', r_contentType t') = (r_status t, r_contentType t) /\
                         field_cleaned temp (r_field t) (r_field t')) (rt_returns r) (rt_returns r'))
    routes (cleanRoutes temp routes).
Proof.
  assert (F : forall A B (R : A -> B -> Prop) (g : A -> B) l, (forall x, R x (g x)) -> Forall2 R l (map g l)).
  { intros A B R g l H. induction l; simpl; constructor; auto. }
  intros temp components routes. split; [apply F; reflexivity|]. apply F. intros r. cbn.
  split; [reflexivity|]. split; [reflexivity|]. split; [reflexivity|].
  split; [apply F; intros; repeat split|]. split; [apply F; intros; repeat split|].
  split; apply F; intros; repeat split.
Qed.
Print Assumptions C35_in_place.

(** Cleaning again changes nothing. *)
Theorem C35_idempotent : forall temp components routes,
  temp <> "time" -> temp <> "" -> temp <> "main" ->
  cleanComponents temp (cleanComponents temp components) = cleanComponents temp components /\
  cleanRoutes temp (cleanRoutes temp routes) = cleanRoutes temp routes.
Proof.
  intros temp components routes A B C. unfold cleanComponents, cleanRoutes. split.
  - rewrite map_map. apply map_ext. intros f. now apply clean_field_again.
  - rewrite map_map. apply map_ext. intros r. unfold cleanRoute. cbn. f_equal; rewrite map_map; apply map_ext;
      intros x; unfold cleanParam, cleanBody, cleanReturn; cbn; f_equal; now apply clean_field_again.
Qed.
Print Assumptions C35_idempotent.

(** A service without main-package types and substituted types is not changed at all. *)
Theorem C35_others_untouched : forall temp components,
  (forall f, In f components -> identifier_names f /\ ~ mentions temp f /\ forall p g t, reaches f p g -> ~ substituted g t) ->
  cleanComponents temp components = components.
Proof.
  intros temp components H. unfold cleanComponents. rewrite <- (map_id components) at 2. apply map_ext_in.
  intros f Hf. destruct (H f Hf) as (A & B & C). now apply clean_field_same.
Qed.
Print Assumptions C35_others_untouched.
Example C35_others_nontrivial :
  let f := mkField "m/p" "struct" "T" [] false false "" "" 0 "" "" ""
     [("A", mkField "" "int" "" [] false false "" "" 0 "" "" "" [] [] [] "")] [] [] "" in
  cleanField tmain f = f /\ identifier_names f /\ ~ mentions tmain f.
Proof.
  cbv zeta. split; [reflexivity|].
  assert (R : forall p g, reaches (mkField "m/p" "struct" "T" [] false false "" "" 0 "" "" ""
     [("A", mkField "" "int" "" [] false false "" "" 0 "" "" "" [] [] [] "")] [] [] "") p g ->
     f_name g <> "time.Duration" /\ f_package g <> tmain /\ f_mapKeyPackage g <> tmain).
  { intros p g H. inversion H; subst; [repeat split; discriminate|].
    match goal with X : In _ (f_structFields _) |- _ => destruct X as [[= <- <-]|[]] end.
    match goal with X : reaches _ _ g |- _ => inversion X; subst; [repeat split; discriminate|] end.
    match goal with X : In _ (f_structFields _) |- _ => destruct X end. }
  split; [intros p g H; apply (R p g H)|]. intros (p & g & H & [E|E]); apply R in H; tauto.
Qed.

(** ** C36 *)

(** The component of time.Duration is documented as an integer, whatever it was before ... *)
Theorem C36_duration_partial : forall temp custom o names t site c,
  temp <> "time" -> f_package c = "time" -> f_name c = "Duration" -> typeMapping custom "Duration" "time" = None ->
  exists s, componentToSchema (typeMapping custom) o names t site (cleanField temp c) = Some s /\
    s_ref s = "" /\ s_type s = "integer" /\ s_format s = "int32" /\ s_enum s = f_enum c.
Proof.
  intros temp custom o names t site c Hm Hp Hn Ht. rewrite component_to_schema_eq, clean_field_package, clean_field_name.
  assert (cleanPackage temp (f_package c) = "time") as ->.
  { rewrite Hp. unfold cleanPackage. destruct (String.eqb "time" temp) eqn:E; auto. apply String.eqb_eq in E. congruence. }
  rewrite Hn, Ht. rewrite clean_field_eq, Hp, Hn.
  change (substituteFor "time" "Duration") with (Some "int"). cbn [f_type f_enum].
  eexists. split; [reflexivity|]. repeat split.
Qed.
Print Assumptions C36_duration_partial.

(** ... but with the enum value 1, the only constant of the type that package time declares with a literal
    (time.go of the standard library: minDuration and maxDuration are shifts, the others are multiples
    of Nanosecond).  Few durations are that. *)
Definition time_decls : list (list decl) :=
  [[DGen true [mkVS (TxIdent "Duration") [VOther] []; mkVS (TxIdent "Duration") [VOther] []];
    DGen true [mkVS (TxIdent "Duration") [VLit "1"] [("Duration", EInt 1)]; mkVS TxNone [VOther] [("Duration", EInt 1000)];
               mkVS TxNone [VOther] [("Duration", EInt 1000000)]]]].
Definition C36_env : TypeEnv :=
  mkTE (fun id => match id with O => Some "time" | 1 => None | _ => Some "m/p" end)
       (fun id => match id with O => "Duration" | 1 => "error" | _ => "T" end)
       (fun id => match id with
                  | O => GBasic "int64" KIntN
                  | 1 => GInterface
                  | _ => GStruct [mkGF "Wait" true false "json:""wait""" (GNamed 0) (fun _ => None);
                                  mkGF "Err" true false "json:""err""" (GNamed 1) (fun _ => None)]
                  end)
       (fun _ => "") (fun _ => true) (fun p => if String.eqb p "time" then time_decls else []) (fun _ => false).
Definition C36_components : list Field := register [] (fst (TypeResult 10 C36_env true (Some "m/p") "" (GNamed 2))).
Theorem C36_duration_enum_refuted : exists env id c s,
  te_pkg env id = Some "time" /\ te_name env id = "Duration" /\ te_under env id = GBasic "int64" KIntN /\
  In c (register [] (fst (TypeResult 10 env true (Some "m/p") "" (GNamed id)))) /\
  f_package c = "time" /\ f_name c = "Duration" /\
  componentToSchema (typeMapping []) plain_orders [] "json" [] (cleanField tmain c) = Some s /\
  s_type s = "integer" /\ s_enum s = [EInt 1].
Proof.
  exists C36_env, 0. do 2 eexists. split; [reflexivity|]. split; [reflexivity|]. split; [reflexivity|].
  split; [vm_compute; left; reflexivity|]. split; [reflexivity|]. split; [reflexivity|].
  split; [vm_compute; reflexivity|]. split; reflexivity.
Qed.
Print Assumptions C36_duration_enum_refuted.

(** An error is never documented as a string: the analysis gives its type no name to be substituted by.
    Whatever the depth, the field keeps type error ... *)
Theorem C36_error_kept : forall fuel env shouldAdd pkg id temp,
  te_pkg env id = None -> te_name env id = "error" ->
  exists r, snd (TypeResult (S fuel) env shouldAdd pkg "" (GNamed id)) = Ok r /\
    f_type (cleanField temp (ParseResultToField r)) = "error".
Proof.
  intros fuel env shouldAdd pkg id temp Hp Hn. cbn [TypeResult]. rewrite Hp, Hn. cbn.
  eexists. split; [reflexivity|]. reflexivity.
Qed.
Print Assumptions C36_error_kept.

(** ... and a property of this type has a schema that says nothing. *)
Theorem C36_error_refuted : exists c s,
  In c (cleanComponents tmain C36_components) /\ f_name c = "T" /\ f_package c = "m/p" /\
  (exists f, mlookup "Err" (f_structFields c) = Some f /\ f_type f = "error") /\
  (exists names, makeCollisionSafeNames plain_orders (cleanComponents tmain C36_components) [] = Ok names /\
    componentToSchema (typeMapping []) plain_orders names "json" [] c = Some s) /\
  map fst (s_props s) = ["err"; "wait"] /\
  mlookup "err" (s_props s) = Some emptySchema.
Proof.
  do 2 eexists. split; [vm_compute; right; left; reflexivity|]. split; [reflexivity|]. split; [reflexivity|].
  split; [eexists; split; reflexivity|]. split.
  - eexists. split; [vm_compute; reflexivity|]. vm_compute. reflexivity.
  - split; reflexivity.
Qed.
Print Assumptions C36_error_refuted.
Example C36_nontrivial :
  map (fun c => (f_package c, f_name c, f_type c)) (cleanComponents tmain C36_components)
    = [("time", "Duration", "int"); ("m/p", "T", "struct")].
Proof. vm_compute. reflexivity. Qed.
