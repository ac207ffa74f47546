(** Property theorems about the JSON text of a document: C75. *)
From Coq Require Import List String Ascii Bool ZArith Arith Lia Permutation.
From Verif Require Import BaseStr BaseMap M_Types M_Collect M_Paths M_TypeTrav M_OpenAPI M_Parse M_Clean M_FS M_Service S_Collect S_Names S_OpenAPI S_Paths S_Service S_Cache S_Files S_Whole S_Example.
From Verif Require Import M_Json S_Json P_FS P_Path P_Frame P_Whole P_Json P_JsonDoc P_Built P_JsonRead P_JsonAny Props_Names Props_OpenAPI Props_Parse Props_Files Props_Whole.
Import ListNotations.
Local Open Scope string_scope.

(** ** C75: a document in JSON can be read back *)

(** The bytes written for a document are one JSON text after RFC 8259, with every name of an object once, and what the
    text says as an OpenAPI document is the document, which is the only one it says.  Proved for documents whose strings are UTF-8
    (encoding/json writes U+FFFD for other bytes: C75_bytes_refuted); the last clause for enumerations without floating
    point values (C75_float_refuted).  [float] is how encoding/json writes a floating point number, [short] tells the
    releases of Go apart.  Not covered: the text in YAML. *)
Theorem C75_json_partial : forall short float o custom config routes components names0 d names,
  valid_orders o -> generated o custom config routes components names0 d names ->
  (forall t, number (float t)) -> Forall utf8 (document_texts d) ->
  exists v, json (document_text short float d) v /\ (forall v', json (document_text short float d) v' -> v' = v) /\
    unique_names v /\ document_value float v d /\
    (exact_document d -> forall d', exact_document d' -> document_value float v d' -> d' = d).
Proof.
  intros short float o custom config routes components names0 d names VO (c & G) Hf U. exists (document_json float d).
  assert (J : json (document_text short float d) (document_json float d)) by (apply value_written, document_sound; auto).
  assert (N : unique_names (document_json float d)) by (eapply built_unique; eauto).
  split; [exact J|]. split; [intros v' J'; eapply one_value; eauto|]. split; [exact N|]. split; [apply document_said|].
  intros X d' X' D. eapply document_one; eauto. apply document_said.
Qed.
Print Assumptions C75_json_partial.

(** Whatever its strings are, the bytes written for a document are a JSON text in UTF-8. *)
Theorem C75_wellformed : forall short float d, (forall t, number (float t)) ->
  utf8 (document_text short float d) /\ exists v, json (document_text short float d) v.
Proof.
  intros short float d Hf. assert (N := document_numeric float Hf d). split; [now apply value_utf8|].
  exists (repaired (document_json float d)). now apply value_repaired.
Qed.
Print Assumptions C75_wellformed.

(** Two documents with the same bytes are the same. *)
Theorem C75_injective_partial : forall short float o custom config routes components names0 d names o' custom' config' routes' components' names0' d' names',
  valid_orders o -> generated o custom config routes components names0 d names ->
  valid_orders o' -> generated o' custom' config' routes' components' names0' d' names' ->
  (forall t, number (float t)) -> Forall utf8 (document_texts d) -> Forall utf8 (document_texts d') -> exact_document d -> exact_document d' ->
  document_text short float d = document_text short float d' -> d = d'.
Proof.
  intros short float o custom config routes components names0 d names o' custom' config' routes' components' names0' d' names' VO G VO' G' Hf U U' X X' E.
  destruct (C75_json_partial short float _ _ _ _ _ _ _ _ VO G Hf U) as (v & J & _ & _ & _ & O).
  destruct (C75_json_partial short float _ _ _ _ _ _ _ _ VO' G' Hf U') as (v' & J' & _ & _ & D' & _).
  rewrite <- E in J'. assert (v = v') as <- by (eapply one_value; eauto). symmetry. now apply O.
Qed.
Print Assumptions C75_injective_partial.

(** For a run: the file of a document output whose path does not end in .yaml or .yml holds such a text. *)
Theorem C75_run_partial : forall env fuel prog s w s' w' before o after x,
  sane w -> kind_at (work_dir s w) (w_fs w) = Some KDir -> fresh s -> analyses env fuel prog -> served_once s -> valid_orders (e_orders env) ->
  sv_outputs s = (before ++ o :: after)%list -> out_generate o = GeOpenAPI x -> left_alone s w after (document_place s w x) ->
  is_yaml (openapiPath x) = false ->
  Parse env s w = (Ok tt, s', w') ->
  exists d, kind_at (document_place s w x) (w_fs w') = Some (KFile (CDocument false d)) /\
    forall short float, (forall t, number (float t)) -> Forall utf8 (document_texts d) ->
    exists v, json (document_text short float d) v /\ (forall v', json (document_text short float d) v' -> v' = v) /\
      unique_names v /\ document_value float v d.
Proof.
  intros env fuel prog s w s' w' before o after x SA HD FR AN ON VO EO GO LA Y E.
  destruct (whole_run env s w SA HD fuel prog before o after x s' w' FR AN ON EO GO LA E)
    as (rs & routes & main & comps & d & custom & config & names0 & names & CR & SI & _ & _ & _ & _ & G & K & _).
  rewrite Y in K. exists d. split; [exact K|]. intros short float Hf U.
  destruct (C75_json_partial short float _ _ _ _ _ _ _ _ VO G Hf U) as (v & A & B & C & D & _). exists v. auto.
Qed.
Print Assumptions C75_run_partial.

(** ** Examples *)

(** Enough of encoding/json for literals that are JSON numbers already. *)
Definition one_float (t : string) : string := "1".
Lemma one_number t : number (one_float t).
Proof. exists "", "1", "", "". split; [reflexivity|]. repeat split; [cbn; auto|apply int_one; cbn; lia|constructor|constructor]. Qed.

(** A document with references, a property name with a quote and a description with a line break and an angle bracket. *)
Definition described (doc : string) (f : Field) : Field :=
  mkField (f_package f) (f_type f) (f_name f) (f_enum f) (f_isRequired f) (f_isEmbedded f) (f_sliceType f) (f_arrayType f) (f_arrayLength f)
    (f_mapKeyPackage f) (f_mapKeyType f) (f_mapValueType f) (f_structFields f) (f_bindingTags f) (f_validationTags f) doc.
Definition C75_comps := [scomp "m/p" "Base" [tfield "string" "X" "json:""a<b"""];
                         described ("one" ++ String (ascii_of_nat 10) "two") (scomp "m/p" "T" [tfield "Base" "B" "json:""b"""])].
Definition C75_config : option Config := Some (mkConfig "A ""shop""" "" "1" ("me", "", "") ("MIT", "") false "localhost" "/" 80).
Definition C75_doc : Document :=
  match buildDocument plain_orders [] C75_config C18_good_routes C75_comps [] with Ok (d, _, _) => d | _ => mkDoc "" "" "" ("", "", "") ("", "") [] [] [] end.
Definition C75_text : string := join (String (ascii_of_nat 10) "")
  ["{";
   "  ""openapi"": ""3.0.0"",";
   "  ""info"": {";
   "    ""title"": ""A \""shop\"""",";
   "    ""description"": ""Generated by astra"",";
   "    ""contact"": {";
   "      ""name"": ""me""";
   "    },";
   "    ""license"": {";
   "      ""name"": ""MIT""";
   "    },";
   "    ""version"": ""1""";
   "  },";
   "  ""servers"": [";
   "    {";
   "      ""url"": ""http://localhost:80/""";
   "    }";
   "  ],";
   "  ""paths"": {";
   "    ""/"": {";
   "      ""get"": {";
   "        ""responses"": {";
   "          ""200"": {";
   "            ""description"": """",";
   "            ""content"": {";
   "              ""application/json"": {";
   "                ""schema"": {";
   "                  ""$ref"": ""#/components/schemas/p.T""";
   "                }";
   "              }";
   "            }";
   "          }";
   "        }";
   "      }";
   "    }";
   "  },";
   "  ""components"": {";
   "    ""schemas"": {";
   "      ""p.Base"": {";
   "        ""type"": ""object"",";
   "        ""properties"": {";
   "          ""a\u003cb"": {";
   "            ""type"": ""string""";
   "          }";
   "        }";
   "      },";
   "      ""p.T"": {";
   "        ""type"": ""object"",";
   "        ""properties"": {";
   "          ""b"": {}";
   "        },";
   "        ""description"": ""one\ntwo""";
   "      }";
   "    }";
   "  }";
   "}"].
Example C75_nontrivial :
  valid_orders plain_orders /\ (exists names, generated plain_orders [] C75_config C18_good_routes C75_comps [] C75_doc names) /\
  (forall t, number (one_float t)) /\ Forall utf8 (document_texts C75_doc) /\ exact_document C75_doc /\
  document_text true one_float C75_doc = C75_text.
Proof.
  split; [apply plain_orders_valid|]. split; [eexists; eexists; vm_compute; reflexivity|]. split; [exact one_number|].
  split. { vm_compute. repeat constructor. }
  split. { vm_compute. repeat constructor; intros t H; repeat (destruct H as [H|H]; [discriminate H|]); exact H. }
  vm_compute. reflexivity.
Qed.

(** A title that is no UTF-8 is not what the text says. *)
Lemma title_said short float d v : (forall t, number (float t)) -> json (document_text short float d) v -> document_value float v d ->
  json_string (d_title d) = d_title d.
Proof.
  intros Hf J D. assert (R : json (document_text short float d) (repaired (document_json float d))) by (now apply value_repaired, document_numeric).
  assert (E := one_value _ _ _ J R). subst v. destruct D as (o & i & c & l & cs & E & _ & A1 & A2 & _).
  unfold document_json in E. cbn [repaired map fst snd] in E. injection E as <-.
  destruct A1 as [A1|[A1|A1]]; [discriminate A1| |].
  - injection A1 as <-. destruct A2 as [A2|A2]; [now injection A2|]. rewrite map_app in A2. apply in_app_iff in A2 as [A2|A2].
    + unfold text_member in A2. destruct (String.eqb (d_description d) ""); [destruct A2|]. destruct A2 as [A2|[]]. discriminate A2.
    + destruct A2 as [A2|[A2|[A2|[]]]]; discriminate A2.
  - exfalso. rewrite map_app in A1. apply in_app_iff in A1 as [A1|A1]; [|rewrite map_app in A1; apply in_app_iff in A1 as [A1|A1]].
    + unfold list_member in A1. destruct (map _ (d_servers d)); [destruct A1|]. destruct A1 as [A1|[]]. discriminate A1.
    + unfold map_member in A1. destruct (map _ (d_paths d)); [destruct A1|]. destruct A1 as [A1|[]]. discriminate A1.
    + destruct A1 as [A1|[]]. discriminate A1.
Qed.
Theorem C75_bytes_refuted : exists o custom config routes components d names,
  valid_orders o /\ generated o custom config routes components [] d names /\
  forall short float v, (forall t, number (float t)) -> json (document_text short float d) v -> ~ document_value float v d.
Proof.
  exists plain_orders, [], (Some (mkConfig (str1 (ascii_of_nat 255)) "" "1" ("", "", "") ("", "") false "h" "/" 80)), [], []. do 2 eexists.
  split; [apply plain_orders_valid|]. split; [eexists; reflexivity|]. intros short float v Hf J D.
  apply (title_said short) in D; auto. discriminate D.
Qed.
Print Assumptions C75_bytes_refuted.

(** Values of an enumeration that differ only as Go literals, such as 1 and 1.0, are written alike. *)
Theorem C75_float_refuted : exists d d', d <> d' /\ forall short, document_text short one_float d = document_text short one_float d' /\
  (exists o custom config routes components names, valid_orders o /\ generated o custom config routes components [] d names) /\
  (exists o custom config routes components names, valid_orders o /\ generated o custom config routes components [] d' names).
Proof.
  pose (comp := fun e => mkField "m/p" "int" "N" e false false "" "" 0 "" "" "" [] [] [] "").
  pose (doc := fun e => match buildDocument plain_orders [] C75_config [] [comp e] [] with Ok (d, _, _) => d | _ => C75_doc end).
  assert (G : forall e, exists o custom config routes components names, valid_orders o /\ generated o custom config routes components [] (doc e) names).
  { intros e. exists plain_orders, [], C75_config, [], [comp e]. eexists. split; [apply plain_orders_valid|]. eexists. reflexivity. }
  exists (doc [EInt 1]), (doc [EFloat "1.0"]). split; [vm_compute; discriminate|]. intros short. split; [destruct short; vm_compute; reflexivity|]. auto.
Qed.
Print Assumptions C75_float_refuted.
