(** Property theorems about the bytes of JSON caches and of Azure functions: C82, C83. *)
From Coq Require Import List String Ascii Bool ZArith Arith Lia Sorted Permutation.
From Verif Require Import BaseStr BaseMap M_Types M_Collect M_OpenAPI M_Parse M_Clean M_FS M_Service M_Json M_JsonOut M_CacheText.
From Verif Require Import S_Paths S_Service S_Files S_Cache S_Azure S_Example S_Json S_JsonOut S_CacheText P_FS P_Cache P_Load P_Json P_JsonDoc P_JsonRead P_JsonAny P_JsonOut P_CacheText.
From Verif Require Import Props_Cache Props_Azure Props_Json Props_JsonOut.
Import ListNotations.
Local Open Scope string_scope.

(** ** C82: the bytes of a JSON cache say what loading it gives *)

Lemma scalar_numeric v : scalar v -> numeric v.
Proof. destruct v; cbn; easy. Qed.
Lemma scalar_unique v : scalar v -> unique_names (repaired v).
Proof. destruct v; cbn; easy. Qed.
Lemma scalar_no_string v s : scalar v -> v <> JStr s.
Proof. intros H ->. exact H. Qed.

(** Whatever the strings of the service are, the bytes of its cache are one JSON text after RFC 8259, in UTF-8, which says [json_service s],
    the data that LoadCache is modelled to take from it.  If maps have their keys once, also with U+FFFD for bytes that are no text, then no
    object has a name twice, and if no value of an enumeration is a number the text says no other data, up to the order in which maps
    are listed.  [float], [short]: see C75; [nil] tells nil slices and maps from empty ones, [other] how values of a configuration
    that are no strings are written. *)
Theorem C82_cache : forall short float nil other s,
  (forall t, number (float t)) -> (forall k, scalar (other k)) ->
  let text := cache_text short float nil other s in
  utf8 text /\ exists v, json text v /\ (forall v', json text v' -> v' = v) /\ cached_value float v (json_service s) /\
    (Forall text_once (output_fields (sv_routes s) (sv_components s)) -> Forall (fun o => keys_once (out_config o)) (sv_outputs s) -> keys_once (sv_customTypes s) ->
     unique_names v /\
     (Forall no_floats (output_fields (ca_routes (json_service s)) (ca_components (json_service s))) ->
      forall c, Forall no_floats (output_fields (ca_routes c) (ca_components c)) -> cached_value float v c -> same_data (json_service s) c)).
Proof.
  intros short float nil other s Hf Ho text.
  assert (N : numeric (service_json float nil other s)) by (apply service_numeric; auto using scalar_numeric).
  split; [now apply compact_utf8|]. exists (repaired (service_json float nil other s)).
  assert (J := compact_repaired short _ N). assert (D := service_said3 float nil other (fun k x => scalar_no_string _ x (Ho k)) s).
  split; [exact J|]. split; [intros v' J'; eapply one_value; eauto|]. split; [exact D|].
  intros T O K. assert (U := service_unique3 float nil other (fun k => scalar_unique _ (Ho k)) s T O K). split; [exact U|].
  intros F c F' D'. exact (cached_one float _ _ _ U F F' D D').
Qed.
Print Assumptions C82_cache.

(** Data that JSON can carry is said as it is, with the custom types. *)
Theorem C82_verbatim : forall short float nil other s,
  (forall t, number (float t)) -> (forall k, scalar (other k)) ->
  carried s -> Forall (fun kt => utf8 (fst kt) /\ utf8 (tf_type (snd kt)) /\ utf8 (tf_format (snd kt))) (sv_customTypes s) ->
  exists v, json (cache_text short float nil other s) v /\ cached_value float v (verbatim s).
Proof.
  intros short float nil other s Hf Ho C T. destruct (C82_cache short float nil other s Hf Ho) as (_ & v & J & _ & D & _).
  exists v. split; [exact J|]. destruct (carried_service s C) as (E1 & E2 & E3 & E4 & E5).
  replace (verbatim s) with (json_service s); auto. unfold verbatim. rewrite <- E1, <- E2, <- E3, <- E4, <- E5. unfold json_service at 1. cbn [ca_inputs ca_outputs ca_config ca_routes ca_components].
  f_equal. refine (Forall_id _ _ _ _ T). intros (k & [a b]) (U1 & U2 & U3). cbn [fst snd tf_type tf_format] in *. now rewrite (id_string _ U1), (id_string _ U2), (id_string _ U3).
Qed.
Print Assumptions C82_verbatim.

(** Two services have the same bytes as caches only if loading gives the same, up to the order in which maps are listed. *)
Theorem C82_injective_partial : forall short float nil other s nil' other' s',
  (forall t, number (float t)) -> (forall k, scalar (other k)) -> (forall k, scalar (other' k)) ->
  Forall text_once (output_fields (sv_routes s) (sv_components s)) -> Forall (fun o => keys_once (out_config o)) (sv_outputs s) -> keys_once (sv_customTypes s) ->
  Forall no_floats (output_fields (ca_routes (json_service s)) (ca_components (json_service s))) ->
  Forall no_floats (output_fields (ca_routes (json_service s')) (ca_components (json_service s'))) ->
  cache_text short float nil other s = cache_text short float nil' other' s' -> same_data (json_service s) (json_service s').
Proof.
  intros short float nil other s nil' other' s' Hf Ho Ho' T O K F F' E.
  destruct (C82_cache short float nil other s Hf Ho) as (_ & v & J & _ & _ & X). destruct (C82_cache short float nil' other' s' Hf Ho') as (_ & v' & J' & _ & D' & _).
  rewrite <- E in J'. assert (v = v') as <- by (eapply one_value; eauto). destruct (X T O K) as (_ & Y). exact (Y F _ F' D').
Qed.
Print Assumptions C82_injective_partial.

(** For a run: once caching has succeeded at a place for JSON, LoadCache there gives what the bytes of the service say. *)
Theorem C82_run : forall env s w s1 w1 s0 x,
  (forall n, e_fault env n = None) -> sv_cachePath s0 = sv_cachePath s -> sv_workDir s0 = sv_workDir s -> cache_name s = x ++ ".json" ->
  Cache env s w = (Ok tt, s1, w1) ->
  exists s2 w2, LoadCache env s0 w1 = (Ok tt, s2, w2) /\
    forall short float nil other, (forall t, number (float t)) -> (forall k, scalar (other k)) ->
    exists v types, json (cache_text short float nil other s) v /\
      cached_value float v (mkCached (map in_mode (sv_inputs s2)) (map (fun o => (out_mode o, out_config o)) (sv_outputs s2)) (sv_config s2) (sv_routes s2) (sv_components s2) types).
Proof.
  intros env s w s1 w1 s0 x NF C W EX E. destruct (load_after env s w s1 w1 s0 NF E C W) as (c & A & B & w2 & L).
  unfold decodeCache in L. rewrite name_json, name_yaml in L. rewrite name_yaml in A, B.
  assert (S : has_suffix ".json" (cache_name s) = true) by (rewrite EX; apply suffix_app). rewrite S in L. assert (Y := json_not_yaml _ S). rewrite Y in L.
  specialize (B Y). subst c. eexists _, w2. split; [exact L|]. intros short float nil other Hf Ho.
  destruct (C82_cache short float nil other s Hf Ho) as (_ & v & J & _ & D & _). exists v, (ca_customTypes (json_service s)). split; [exact J|].
  destruct (json_service s) as [i o cf r k t]. unfold loaded, with_results, with_config, with_io.
  cbn [sv_inputs sv_outputs sv_config sv_routes sv_components ca_inputs ca_outputs ca_config ca_routes ca_components ca_customTypes]. rewrite !map_map. cbn [in_mode out_mode out_config].
  replace (map (fun x0 : string => x0) i) with i by (symmetry; apply map_id).
  replace (map (fun x0 : string * list (string * cfgval) => (fst x0, snd x0)) o) with o; [exact D|].
  clear. induction o as [|(a & b) o IH]; cbn; congruence.
Qed.
Print Assumptions C82_run.

(** ** C83: the bytes of an Azure function *)

(** function.json is one JSON text in UTF-8, with every name once, that says two bindings, the trigger with these methods and
    this route (with U+FFFD for bytes that are no text) and the answer, and no others. *)
Theorem C83_function : forall short methods route,
  let text := function_text short methods route in
  utf8 text /\ exists v, json text v /\ (forall v', json text v' -> v' = v) /\ unique_names v /\
    forall methods' route', function_value v methods' route' <-> methods' = map json_string methods /\ route' = json_string route.
Proof.
  intros short ms r text. assert (N := function_numeric ms r). split; [now apply value_utf8|]. exists (repaired (function_json ms r)).
  assert (J := value_repaired short _ 0 N). split; [exact J|]. split; [intros v' J'; eapply one_value; eauto|].
  assert (U := function_unique ms r). split; [exact U|]. intros ms' r'. split; [intros D; exact (function_one _ _ _ _ _ U D (function_said ms r))|].
  intros (-> & ->). apply function_said.
Qed.
Print Assumptions C83_function.

(** For a run: below the output directory, what is a file is the text of a function that says the methods and the converted path of a route, if these are UTF-8. *)
Theorem C83_run : forall env dir s w w',
  sv_workDir s <> "" -> generateAzure env dir s w = (Ok tt, s, w') ->
  forall q c, kind_at (place (work_dir s w) dir ++ q) (w_fs w') = Some (KFile c) ->
  exists r methods route, In r (sv_routes s) /\ q = (folder r ++ ["function.json"])%list /\ c = CFunction methods route /\
    (utf8 (to_lower (rt_method r)) -> utf8 (convertRoute r) ->
     forall short, exists v, json (function_text short methods route) v /\
       forall methods' route', function_value v methods' route' <-> methods' = [to_lower (rt_method r); "options"] /\ route' = convertRoute r).
Proof.
  intros env dir s w w' WD E q c K. destruct (C47_functions env dir s w WD) as [(e & s' & w2 & E')|(w2 & E' & X & _)]; rewrite E in E'; [discriminate|]. injection E' as <-.
  apply X in K. destruct K as [(_ & K)|(r & I & [(_ & K)|(Q & K)])]; try discriminate. injection K as ->.
  exists r, [to_lower (rt_method r); "options"], (convertRoute r). split; [exact I|]. split; [exact Q|]. split; [reflexivity|]. intros U1 U2 short.
  destruct (C83_function short [to_lower (rt_method r); "options"] (convertRoute r)) as (_ & v & J & _ & _ & D). exists v. split; [exact J|].
  cbn [map] in D. change (json_string "options") with "options" in D. rewrite (utf8_json _ U1), (utf8_json _ U2) in D. exact D.
Qed.
Print Assumptions C83_run.

(** ** Examples *)
Definition C82_service : Service :=
  with_customTypes [("money.Amount", mkTF "string" "decimal"); ("a.B", mkTF "int" "")]
    (with_results C81_routes [mkField "m/p" "string" "Kind" [EStr "x"; EBool true] false false "" "" 0 "" "" "" [] [] [] ""; C81_item] ex_cached).
Definition C82_text : string := join ""
  ["{""inputs"":[{""mode"":""gin""}],";
   """outputs"":[{""mode"":""openapi"",""configuration"":{""filePath"":""out""}},{""mode"":""json"",""configuration"":{""filePath"":""out""}}],";
   """config"":{""title"":""title"",""description"":"""",""version"":""1"",""contact"":{""name"":"""",""url"":"""",""email"":""""},""license"":{""name"":"""",""url"":""""},""secure"":false,""host"":""localhost"",""basePath"":""/"",""port"":8000},";
   """routes"":[{""handler"":""m.get"",""file"":""/home/m.go"",""lineNo"":12,""method"":""GET"",""path"":""/items/:id"",""params"":[{""name"":""id"",""type"":{""type"":""string""},""isRequired"":true}],""returnTypes"":[{""statusCode"":200,""contentType"":""application/json"",""field"":{""package"":""m/p"",""type"":""slice"",""sliceType"":""Item""}}],""operationId"":""get"",""responseHeaders"":[{""name"":""X"",""type"":{""type"":""string""}}]},{""handler"":"""",""file"":"""",""lineNo"":0,""method"":""POST"",""path"":""/"",""body"":[{""type"":{""package"":""m/p"",""type"":""Item""},""contentType"":""application/json"",""isBound"":true}]}],";
   """components"":[{""package"":""m/p"",""type"":""string"",""name"":""Kind"",""enumValues"":[""x"",true]},{""package"":""m/p"",""type"":""struct"",""name"":""Item"",""structFields"":{""A"":{""type"":""map"",""isRequired"":true,""mapKeyType"":""string"",""mapValueType"":""int"",""structFieldBindingTags"":{""json"":{""name"":""a\u003cb"",""return_optional"":true},""xml"":{""not_shown"":true}},""structFieldValidationTags"":{""binding"":{""is_required"":true}}},""B"":{""type"":""array"",""arrayType"":""string"",""arrayLength"":3,""structFieldValidationTags"":{""validate"":{}},""doc"":""\""two\""\nlines""}}}],";
   """custom_type_mapping"":{""a.B"":{""Type"":""int"",""Format"":""""},""money.Amount"":{""Type"":""string"",""Format"":""decimal""}}}"].
Definition no_any (k : string) : jval := JNull.
(** Deciding that names are different. *)
Fixpoint onceb (l : list string) : bool := match l with [] => true | x :: r => negb (existsb (String.eqb x) r) && onceb r end.
Lemma onceb_ok l : onceb l = true -> NoDup l.
Proof.
  induction l as [|x r IH]; intros H; [constructor|]. cbn in H. apply andb_prop in H as (A & B). constructor; auto.
  intros I. apply negb_true_iff in A. rewrite <- not_true_iff_false, existsb_exists in A. apply A. exists x. split; auto. apply String.eqb_refl.
Qed.
Definition keysb {A} (l : list (string * A)) : bool := onceb (map (fun ka => json_string (fst ka)) l).
Lemma text_onceb l : forallb (fun f => keysb (f_structFields f) && keysb (f_bindingTags f) && keysb (f_validationTags f)) l = true -> Forall text_once l.
Proof.
  intros H. rewrite forallb_forall in H. apply Forall_forall. intros f I. apply H in I. apply andb_prop in I as (I & C). apply andb_prop in I as (A & B).
  split; [now apply onceb_ok|]. split; now apply onceb_ok.
Qed.

Example C82_nontrivial :
  (forall t, number (one_float t)) /\ (forall k, scalar (no_any k)) /\
  Forall text_once (output_fields (sv_routes C82_service) (sv_components C82_service)) /\ Forall (fun o => keys_once (out_config o)) (sv_outputs C82_service) /\ keys_once (sv_customTypes C82_service) /\
  Forall no_floats (output_fields (ca_routes (json_service C82_service)) (ca_components (json_service C82_service))) /\
  cache_text true one_float (fun _ => true) no_any C82_service = C82_text.
Proof.
  split; [exact one_number|]. split; [exact (fun _ => Logic.I)|].
  split; [apply text_onceb; vm_compute; reflexivity|].
  split. { apply Forall_forall. intros o I. apply onceb_ok. destruct I as [<-|[<-|[]]]; vm_compute; reflexivity. }
  split; [apply onceb_ok; vm_compute; reflexivity|].
  split. { vm_compute. repeat constructor; intros t H; repeat (destruct H as [H|H]; [discriminate H|]); exact H. }
  vm_compute. reflexivity.
Qed.

(** C82_run and C82_verbatim: the service of C38_nontrivial. *)
Example C82_run_nontrivial : carried ex_cached /\ cache_name ex_cached = "cache" ++ ".json" /\ fst (fst (Cache (ex_env no_fault) ex_cached ex_world)) = Ok tt.
Proof. split; [exact ex_carried|]. split; vm_compute; reflexivity. Qed.

(** The function of the first route of C47_nontrivial, whose run meets the hypotheses of C83_run. *)
Example C83_nontrivial :
  function_text true ["get"; "options"] "/a/{id:alpha}" = join nl
  ["{";
   "  ""bindings"": [";
   "    {";
   "      ""type"": ""httpTrigger"",";
   "      ""direction"": ""in"",";
   "      ""name"": ""req"",";
   "      ""methods"": [";
   "        ""get"",";
   "        ""options""";
   "      ],";
   "      ""route"": ""/a/{id:alpha}""";
   "    },";
   "    {";
   "      ""type"": ""http"",";
   "      ""direction"": ""out"",";
   "      ""name"": ""res""";
   "    }";
   "  ]";
   "}"] /\ utf8 (to_lower "GET") /\ utf8 "/a/{id:alpha}".
Proof. split; [vm_compute; reflexivity|]. split; apply utf8_json_iff; vm_compute; reflexivity. Qed.

(** Keys that differ only in bytes that are no text become one: the object then has a name twice, and reading keeps one entry. *)
Theorem C82_names_refuted : exists s, NoDup (map fst (sv_customTypes s)) /\
  forall short float nil other v, (forall t, number (float t)) -> (forall k, scalar (other k)) -> json (cache_text short float nil other s) v -> ~ unique_names v.
Proof.
  pose (a := str1 (ascii_of_nat 254)). pose (b := str1 (ascii_of_nat 255)).
  exists (with_customTypes [(a, mkTF "string" ""); (b, mkTF "integer" "")] (New [])).
  split; [constructor; [intros [H|[]]; discriminate H|repeat constructor; intros []]|]. intros short float nil other v Hf Ho J U.
  assert (N := service_numeric float Hf nil other (fun k => scalar_numeric _ (Ho k)) (with_customTypes [(a, mkTF "string" ""); (b, mkTF "integer" "")] (New []))).
  assert (E := one_value _ _ _ J (compact_repaired short _ N)). subst v. apply unique_obj in U as (_ & U). rewrite Forall_forall in U.
  assert (X := U (rep ("custom_type_mapping", JObj [(a, typeFormat_json (mkTF "string" "")); (b, typeFormat_json (mkTF "integer" ""))])) ltac:(do 5 right; left; reflexivity)).
  apply unique_obj in X as (X & _). vm_compute in X. inversion_clear X as [|? ? Y _]. apply Y. left. reflexivity.
Qed.
Print Assumptions C82_names_refuted.
