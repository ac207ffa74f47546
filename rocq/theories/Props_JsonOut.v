(** Property theorems about the text of the JSON output: C81. *)
From Coq Require Import List String Ascii Bool ZArith Arith Lia Sorted Permutation.
From Verif Require Import BaseStr BaseMap M_Types M_Collect M_Paths M_TypeTrav M_OpenAPI M_Parse M_Clean M_FS M_Service S_Collect S_Names S_OpenAPI S_Parse S_Paths S_Service S_Cache S_Files S_Whole S_Example.
From Verif Require Import M_Json M_JsonOut S_Json S_JsonOut P_FS P_Path P_Frame P_Whole P_Json P_JsonDoc P_JsonRead P_JsonAny P_JsonOut Props_Names Props_OpenAPI Props_Parse Props_Files Props_Whole Props_Results Props_Json.
Import ListNotations.
Local Open Scope string_scope.

(** ** C81: the JSON output can be read back *)

(** The bytes written for routes and components are one JSON text after RFC 8259, with every name of an object once, which
    says these routes and components and, if no value of an enumeration is from a floating point literal, no others up to the
    order in which maps are listed.  [maps_once] is what Go maps are.  Proved for strings in UTF-8 (encoding/json writes U+FFFD for
    other bytes: C81_bytes_refuted).  [float], [short]: see C75; [nr] and [nc] tell nil from empty slices. *)
Theorem C81_json_partial : forall short float nr nc routes components,
  (forall t, number (float t)) -> Forall utf8 (output_texts routes components) -> Forall maps_once (output_fields routes components) ->
  let text := output_text short float nr nc routes components in
  exists v, json text v /\ (forall v', json text v' -> v' = v) /\ unique_names v /\ output_value (enum_value float) v routes components /\
    (Forall no_floats (output_fields routes components) -> forall routes' components', Forall no_floats (output_fields routes' components') ->
       output_value (enum_value float) v routes' components' -> Forall2 same_route routes routes' /\ Forall2 same_field components components').
Proof.
  intros short float nr nc routes comps Hf U M text. exists (output_json float nr nc routes comps).
  assert (J : json text (output_json float nr nc routes comps)) by (apply value_written, output_sound; auto).
  assert (N : unique_names (output_json float nr nc routes comps)) by (now apply output_unique).
  split; [exact J|]. split; [intros v' J'; eapply one_value; eauto|]. split; [exact N|]. split; [apply output_said|].
  intros F rs cs F' D. eapply (output_one (enum_value float)); eauto using output_said, enum_one.
Qed.
Print Assumptions C81_json_partial.

(** Whatever the strings are, the bytes are a JSON text in UTF-8. *)
Theorem C81_wellformed : forall short float nr nc routes components, (forall t, number (float t)) ->
  utf8 (output_text short float nr nc routes components) /\ exists v, json (output_text short float nr nc routes components) v.
Proof.
  intros short float nr nc routes comps Hf. assert (N := output_numeric float Hf nr nc routes comps). split; [now apply value_utf8|].
  exists (repaired (output_json float nr nc routes comps)). now apply value_repaired.
Qed.
Print Assumptions C81_wellformed.

(** Results have the same bytes only if they are the same up to the order in which maps are listed. *)
Theorem C81_injective_partial : forall short float nr nc routes components nr' nc' routes' components',
  (forall t, number (float t)) ->
  Forall utf8 (output_texts routes components) -> Forall utf8 (output_texts routes' components') ->
  Forall maps_once (output_fields routes components) -> Forall maps_once (output_fields routes' components') ->
  Forall no_floats (output_fields routes components) -> Forall no_floats (output_fields routes' components') ->
  output_text short float nr nc routes components = output_text short float nr' nc' routes' components' ->
  Forall2 same_route routes routes' /\ Forall2 same_field components components'.
Proof.
  intros short float nr nc rs cs nr' nc' rs' cs' Hf U U' M M' F F' E.
  destruct (C81_json_partial short float nr nc rs cs Hf U M) as (v & J & _ & _ & _ & O).
  destruct (C81_json_partial short float nr' nc' rs' cs' Hf U' M') as (v' & J' & _ & _ & D' & _).
  rewrite <- E in J'. assert (v = v') as <- by (eapply one_value; eauto). exact (O F _ _ F' D').
Qed.
Print Assumptions C81_injective_partial.

(** The order in which Go iterates over maps does not matter. *)
Theorem C81_order : forall short float nr nc routes components routes' components',
  Forall maps_once (output_fields routes components) -> Forall2 same_route routes routes' -> Forall2 same_field components components' ->
  output_text short float nr nc routes components = output_text short float nr nc routes' components'.
Proof.
  intros short float nr nc routes comps routes' comps' M R C. unfold output_text. now rewrite (output_order float nr nc _ _ _ _ M R C).
Qed.
Print Assumptions C81_order.

(** For a run: the file of a JSON output holds such a text, of the routes served.  C63_results_nontrivial meets the hypotheses. *)
Theorem C81_run_partial : forall env fuel prog s w s' w' before o after x,
  sane w -> kind_at (work_dir s w) (w_fs w) = Some KDir -> fresh s -> analyses env fuel prog -> served_once s ->
  sv_outputs s = (before ++ o :: after)%list -> out_generate o = GeJSON x ->
  left_alone s w after (place (work_dir s w) (with_extension [".json"] x)) ->
  Parse env s w = (Ok tt, s', w') ->
  exists routes components,
    kind_at (place (work_dir s w) (with_extension [".json"] x)) (w_fs w') = Some (KFile (CResults routes components)) /\
    (exists rs, created (e_rel env ("/" ++ join "/" (w_cwd w))) (sv_denyList s) (served s) rs /\ Forall2 same_identity rs routes) /\
    forall short float nr nc, (forall t, number (float t)) -> Forall utf8 (output_texts routes components) -> Forall maps_once (output_fields routes components) ->
    exists v, json (output_text short float nr nc routes components) v /\ (forall v', json (output_text short float nr nc routes components) v' -> v' = v) /\
      unique_names v /\ output_value (enum_value float) v routes components.
Proof.
  intros env fuel prog s w s' w' before o after x SA HD FR AN ON EO GO LA E.
  destruct (C63_results_partial env fuel prog s w s' w' before o after x SA HD FR AN ON EO GO LA E) as (routes & comps & K & R & _).
  exists routes, comps. split; [exact K|]. split; [exact R|]. intros short float nr nc Hf U M.
  destruct (C81_json_partial short float nr nc routes comps Hf U M) as (v & A & B & C & D & _). exists v. auto.
Qed.
Print Assumptions C81_run_partial.

(** ** Examples *)
Definition C81_item : Field :=
  mkField "m/p" "struct" "Item" [] false false "" "" 0 "" "" ""
    [("A", mkField "" "map" "" [] true false "" "" 0 "" "string" "int" [] [("json", mkBT "a<b" false true); ("xml", mkBT "" true false)] [("binding", true)] "");
     ("B", mkField "" "array" "" [] false false "" "string" 3 "" "" "" [] [] [("validate", false)] ("""two""" ++ nl ++ "lines"))] [] [] "".
Definition C81_size : Field := mkField "m/p" "int" "Size" [EInt (-1); EStr "x"; EBool true] false false "" "" 0 "" "" "" [] [] [] "".
Definition C81_routes : list Route :=
  [mkRoute "m.get" "/home/m.go" 12 "GET" "/items/:id" [mkParam "id" (named_field "" "string") true false false false] []
     [] [mkRet 200 "application/json" (mkField "m/p" "slice" "" [] false false "Item" "" 0 "" "" "" [] [] [] "")] "" "get" [] [mkParam "X" (named_field "" "string") false false false false];
   mkRoute "" "" 0 "POST" "/" [] [] [mkBody "" (named_field "m/p" "Item") "application/json" false false false true] [] "" "" [] []].
Definition C81_text : string := join nl
  ["{";
   "  ""routes"": [";
   "    {";
   "      ""handler"": ""m.get"",";
   "      ""file"": ""/home/m.go"",";
   "      ""lineNo"": 12,";
   "      ""method"": ""GET"",";
   "      ""path"": ""/items/:id"",";
   "      ""params"": [";
   "        {";
   "          ""name"": ""id"",";
   "          ""type"": {";
   "            ""type"": ""string""";
   "          },";
   "          ""isRequired"": true";
   "        }";
   "      ],";
   "      ""returnTypes"": [";
   "        {";
   "          ""statusCode"": 200,";
   "          ""contentType"": ""application/json"",";
   "          ""field"": {";
   "            ""package"": ""m/p"",";
   "            ""type"": ""slice"",";
   "            ""sliceType"": ""Item""";
   "          }";
   "        }";
   "      ],";
   "      ""operationId"": ""get"",";
   "      ""responseHeaders"": [";
   "        {";
   "          ""name"": ""X"",";
   "          ""type"": {";
   "            ""type"": ""string""";
   "          }";
   "        }";
   "      ]";
   "    },";
   "    {";
   "      ""handler"": """",";
   "      ""file"": """",";
   "      ""lineNo"": 0,";
   "      ""method"": ""POST"",";
   "      ""path"": ""/"",";
   "      ""body"": [";
   "        {";
   "          ""type"": {";
   "            ""package"": ""m/p"",";
   "            ""type"": ""Item""";
   "          },";
   "          ""contentType"": ""application/json"",";
   "          ""isBound"": true";
   "        }";
   "      ]";
   "    }";
   "  ],";
   "  ""components"": [";
   "    {";
   "      ""package"": ""m/p"",";
   "      ""type"": ""struct"",";
   "      ""name"": ""Item"",";
   "      ""structFields"": {";
   "        ""A"": {";
   "          ""type"": ""map"",";
   "          ""isRequired"": true,";
   "          ""mapKeyType"": ""string"",";
   "          ""mapValueType"": ""int"",";
   "          ""structFieldBindingTags"": {";
   "            ""json"": {";
   "              ""name"": ""a\u003cb"",";
   "              ""return_optional"": true";
   "            },";
   "            ""xml"": {";
   "              ""not_shown"": true";
   "            }";
   "          },";
   "          ""structFieldValidationTags"": {";
   "            ""binding"": {";
   "              ""is_required"": true";
   "            }";
   "          }";
   "        },";
   "        ""B"": {";
   "          ""type"": ""array"",";
   "          ""arrayType"": ""string"",";
   "          ""arrayLength"": 3,";
   "          ""structFieldValidationTags"": {";
   "            ""validate"": {}";
   "          },";
   "          ""doc"": ""\""two\""\nlines""";
   "        }";
   "      }";
   "    },";
   "    {";
   "      ""package"": ""m/p"",";
   "      ""type"": ""int"",";
   "      ""name"": ""Size"",";
   "      ""enumValues"": [";
   "        -1,";
   "        ""x"",";
   "        true";
   "      ]";
   "    }";
   "  ]";
   "}"].
Ltac each_once := cbn; intros H; repeat (destruct H as [H|H]; [discriminate H|]); exact H.
Example C81_nontrivial :
  (forall t, number (one_float t)) /\ Forall utf8 (output_texts C81_routes [C81_item; C81_size]) /\
  Forall maps_once (output_fields C81_routes [C81_item; C81_size]) /\
  Forall no_floats (output_fields C81_routes [C81_item; C81_size]) /\
  output_text true one_float false false C81_routes [C81_item; C81_size] = C81_text.
Proof.
  split; [exact one_number|]. split; [vm_compute; repeat constructor|].
  split; [vm_compute; repeat constructor; each_once|].
  split. { vm_compute. repeat constructor; intros t H; repeat (destruct H as [H|H]; [discriminate H|]); exact H. }
  vm_compute. reflexivity.
Qed.

(** The fields of the struct and its tags the other way round. *)
Definition C81_item' : Field :=
  match C81_item with
  | mkField pkg typ name enum req emb sliceT arrayT arrayL mkp mkt mv [(a, fa); (b, fb)] bt vt doc =>
      mkField pkg typ name enum req emb sliceT arrayT arrayL mkp mkt mv
        [(b, fb); (a, match fa with mkField p1 p2 p3 p4 p5 p6 p7 p8 p9 p10 p11 p12 sf bt' vt' p13 => mkField p1 p2 p3 p4 p5 p6 p7 p8 p9 p10 p11 p12 sf (rev bt') vt' p13 end)] bt vt doc
  | f => f
  end.
Example C81_order_nontrivial : C81_item' <> C81_item /\ Forall maps_once (output_fields [] [C81_item]) /\ Forall2 same_field [C81_item] [C81_item'].
Proof.
  split; [discriminate|]. split.
  { vm_compute. repeat constructor; each_once. }
  constructor; [|constructor]. eapply same_field_intro; [|apply perm_swap|auto|auto].
  repeat constructor; (eapply same_field_intro; [constructor|auto|auto|auto]). apply perm_swap.
Qed.

(** A handler whose name is no UTF-8 is not what the text says. *)
Theorem C81_bytes_refuted : exists routes components, Forall maps_once (output_fields routes components) /\
  forall short float nr nc v, (forall t, number (float t)) -> json (output_text short float nr nc routes components) v -> ~ output_value (enum_value float) v routes components.
Proof.
  exists [mkRoute (str1 (ascii_of_nat 255)) "" 0 "GET" "/" [] [] [] [] "" "" [] []], []. split; [constructor|]. intros short float nr nc v Hf J D.
  assert (R := value_repaired short _ 0 (output_numeric float Hf nr nc [mkRoute (str1 (ascii_of_nat 255)) "" 0 "GET" "/" [] [] [] [] "" "" [] []] [])).
  assert (E := one_value _ _ _ J R). subst v. destruct D as (o & E & [(vs & H & F)|(_ & F)] & _); [|discriminate F]. injection E as <-.
  destruct H as [H|[H|[]]]; [|discriminate H]. injection H as <-. inversion_clear F as [|? ? ? ? (o & t & E & A & _) _]. injection E as <-.
  destruct A as [A|[A|[A|[A|[A|[]]]]]]; discriminate A.
Qed.
Print Assumptions C81_bytes_refuted.

(** Values of an enumeration that differ only as Go literals are written alike. *)
Theorem C81_float_refuted : exists components components', components <> components' /\
  Forall maps_once (output_fields [] components) /\ Forall maps_once (output_fields [] components') /\
  forall short nr nc, output_text short one_float nr nc [] components = output_text short one_float nr nc [] components'.
Proof.
  pose (comp := fun e => mkField "m/p" "int" "N" e false false "" "" 0 "" "" "" [] [] [] "").
  exists [comp [EInt 1]], [comp [EFloat "1.0"]]. split; [discriminate|]. split; [vm_compute; repeat constructor|]. split; [vm_compute; repeat constructor|].
  intros [] [] []; vm_compute; reflexivity.
Qed.
Print Assumptions C81_float_refuted.
