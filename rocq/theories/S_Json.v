(** JSON texts after RFC 8259, and what a JSON value says as an OpenAPI document. *)
From Coq Require Import List String Ascii Bool ZArith NArith Arith DecimalString.
From Verif Require Import BaseStr BaseMap M_Types M_OpenAPI M_Json S_Cache.
Import ListNotations.
Local Open Scope string_scope.

(** ** RFC 8259 *)

Definition ord (c : ascii) : nat := nat_of_ascii c.
(** Section 2: white space. *)
Definition white_char (c : ascii) : Prop := In (ord c) [32; 9; 10; 13].
Inductive white : string -> Prop :=
| wh_end : white ""
| wh_more c r : white_char c -> white r -> white (String c r).

(** Section 6: numbers. *)
Definition digit (c : ascii) : Prop := 48 <= ord c <= 57.
Inductive digits : string -> Prop :=
| dg_one c : digit c -> digits (str1 c)
| dg_more c r : digit c -> digits r -> digits (String c r).
Inductive int_text : string -> Prop :=
| int_zero : int_text "0"
| int_one c : 49 <= ord c <= 57 -> int_text (str1 c)
| int_more c r : 49 <= ord c <= 57 -> digits r -> int_text (String c r).
Inductive frac_text : string -> Prop :=
| fr_none : frac_text ""
| fr_some r : digits r -> frac_text ("." ++ r).
Inductive exp_text : string -> Prop :=
| ex_none : exp_text ""
| ex_some e sign r : e = "e" \/ e = "E" -> In sign [""; "+"; "-"] -> digits r -> exp_text (e ++ sign ++ r).
Definition number (t : string) : Prop :=
  exists minus i f e, t = minus ++ i ++ f ++ e /\ In minus [""; "-"] /\ int_text i /\ frac_text f /\ exp_text e.

(** Section 7: strings.  The characters with an escape of one letter. *)
Definition escapes : list (ascii * nat) :=
  [(ascii_of_nat 34, 34); ("\"%char, 92); ("/"%char, 47); ("b"%char, 8); ("f"%char, 12); ("n"%char, 10); ("r"%char, 13); ("t"%char, 9)].
Definition hex (c : ascii) (n : N) : Prop :=
  (48 <= ord c <= 57 /\ n = N.of_nat (ord c - 48)) \/ (97 <= ord c <= 102 /\ n = N.of_nat (ord c - 87)) \/
  (65 <= ord c <= 70 /\ n = N.of_nat (ord c - 55)).
(** Four digits and their value. *)
Definition hex4 (t : string) (n : N) : Prop :=
  exists a b c d x y z w, t = String a (String b (String c (String d ""))) /\ hex a x /\ hex b y /\ hex c z /\ hex d w /\
    n = (((x * 16 + y) * 16 + z) * 16 + w)%N.
Definition byte (n : N) : ascii := ascii_of_N n.
(** The UTF-8 encoding of a code point. *)
Definition encoding (n : N) : string :=
  (if n <? 128 then String (byte n) ""
   else if n <? 2048 then String (byte (192 + n / 64)) (String (byte (128 + n mod 64)) "")
   else if n <? 65536 then String (byte (224 + n / 4096)) (String (byte (128 + n / 64 mod 64)) (String (byte (128 + n mod 64)) ""))
   else String (byte (240 + n / 262144)) (String (byte (128 + n / 4096 mod 64)) (String (byte (128 + n / 64 mod 64)) (String (byte (128 + n mod 64)) ""))))%N.
(** [chars t s]: the text [t] between quotes stands for the string [s]. *)
Inductive chars : string -> string -> Prop :=
| ch_end : chars "" ""
| ch_plain c t s : 32 <= ord c -> ord c <> 34 -> ord c <> 92 -> chars t s -> chars (String c t) (String c s)
| ch_escape e n t s : In (e, n) escapes -> chars t s -> chars (String "\" (String e t)) (String (ascii_of_nat n) s)
| ch_unicode h n t s : hex4 h n -> (n < 55296 \/ 57343 < n)%N -> chars t s -> chars ("\u" ++ h ++ t) (encoding n ++ s)
| ch_pair h l n m t s : hex4 h n -> hex4 l m -> (55296 <= n <= 56319)%N -> (56320 <= m <= 57343)%N -> chars t s ->
    chars ("\u" ++ h ++ "\u" ++ l ++ t) (encoding (65536 + (n - 55296) * 1024 + (m - 56320))%N ++ s).
Definition quoted_text (t s : string) : Prop := exists u, t = String (ascii_of_nat 34) (u ++ String (ascii_of_nat 34) "") /\ chars u s.

(** Sections 3 to 5: values, objects and arrays. *)
Inductive json : string -> jval -> Prop :=
| js_null : json "null" JNull
| js_true : json "true" (JBool true)
| js_false : json "false" (JBool false)
| js_number t : number t -> json t (JNum t)
| js_string t s : quoted_text t s -> json t (JStr s)
| js_empty_array w : white w -> json ("[" ++ w ++ "]") (JArr [])
| js_array t l : elements t l -> json ("[" ++ t ++ "]") (JArr l)
| js_empty_object w : white w -> json ("{" ++ w ++ "}") (JObj [])
| js_object t l : members t l -> json ("{" ++ t ++ "}") (JObj l)
with elements : string -> list jval -> Prop :=
| el_last w t w' v : white w -> json t v -> white w' -> elements (w ++ t ++ w') [v]
| el_next w t w' v t' l : white w -> json t v -> white w' -> elements t' l -> elements (w ++ t ++ w' ++ "," ++ t') (v :: l)
with members : string -> list (string * jval) -> Prop :=
| me_last w k w1 w2 t w3 key v : white w -> quoted_text k key -> white w1 -> white w2 -> json t v -> white w3 ->
    members (w ++ k ++ w1 ++ ":" ++ w2 ++ t ++ w3) [(key, v)]
| me_next w k w1 w2 t w3 key v t' l : white w -> quoted_text k key -> white w1 -> white w2 -> json t v -> white w3 -> members t' l ->
    members (w ++ k ++ w1 ++ ":" ++ w2 ++ t ++ w3 ++ "," ++ t') ((key, v) :: l).

(** No object has two members of one name. *)
Fixpoint unique_names (v : jval) : Prop :=
  match v with
  | JArr l => fold_right (fun x acc => unique_names x /\ acc) True l
  | JObj l => NoDup (map fst l) /\ fold_right (fun kv acc => unique_names (snd kv) /\ acc) True l
  | _ => True
  end.

(** ** What a value says as an OpenAPI document (OpenAPI specification 3.0, section 4.7) *)

Definition obj := list (string * jval).
(** The member of a name. *)
Definition has (o : obj) (k : string) (v : jval) : Prop := In (k, v) o.
Definition absent (o : obj) (k : string) : Prop := ~ In k (map fst o).
(** Optional members and what their absence stands for. *)
Definition says_text (o : obj) (k s : string) : Prop := has o k (JStr s) \/ (absent o k /\ s = "").
Definition says_flag (o : obj) (k : string) (b : bool) : Prop := has o k (JBool b) \/ (absent o k /\ b = false).
(** The integer of a number without fraction and exponent. *)
Definition integer (t : string) (z : Z) : Prop := exists i, NilEmpty.int_of_string t = Some i /\ Z.of_int i = z.
Definition says_int (o : obj) (k : string) (z : Z) : Prop := (exists t, has o k (JNum t) /\ integer t z) \/ (absent o k /\ z = 0%Z).
Definition says_opt {A} (R : jval -> A -> Prop) (o : obj) (k : string) (x : option A) : Prop :=
  (exists v a, has o k v /\ x = Some a /\ R v a) \/ (absent o k /\ x = None).
Definition says_list {A} (R : jval -> A -> Prop) (o : obj) (k : string) (l : list A) : Prop :=
  (exists vs, has o k (JArr vs) /\ Forall2 R vs l) \/ (absent o k /\ l = []).
Definition keyed {A} (R : jval -> A -> Prop) (kv : string * jval) (ka : string * A) : Prop := fst kv = fst ka /\ R (snd kv) (snd ka).
Definition says_map {A} (R : jval -> A -> Prop) (o : obj) (k : string) (l : list (string * A)) : Prop :=
  (exists vs, has o k (JObj vs) /\ Forall2 (keyed R) vs l) \/ (absent o k /\ l = []).

Section Reader.
  (** How the values of floating point literals are written. *)
  Context (float : string -> string).

  Definition enum_value (v : jval) (e : enumval) : Prop :=
    match e with
    | EStr s => v = JStr s
    | EInt z => exists t, v = JNum t /\ integer t z
    | EBool b => v = JBool b
    | EFloat t => v = JNum (float t)
    end.
  (** Section 4.7.24: the members astra uses. *)
  Inductive schema_value : jval -> Schema -> Prop :=
  | sv o s : says_text o "$ref" (s_ref s) -> says_text o "type" (s_type s) -> says_text o "format" (s_format s) ->
      says_int o "maxLength" (s_maxLength s) -> says_list enum_value o "enum" (s_enum s) ->
      says_list schema_value o "allOf" (s_allOf s) -> says_opt schema_value o "items" (s_items s) ->
      says_map schema_value o "properties" (s_props s) -> says_opt schema_value o "additionalProperties" (s_addl s) ->
      says_text o "description" (s_desc s) -> schema_value (JObj o) s.
  Definition parameter_value (v : jval) (p : OParam) : Prop := exists o sch,
    v = JObj o /\ says_text o "name" (pa_name p) /\ says_text o "in" (pa_in p) /\ says_flag o "required" (pa_required p) /\
    says_text o "style" (pa_style p) /\ says_flag o "explode" (pa_explode p) /\ has o "schema" sch /\ schema_value sch (pa_schema p).
  Definition media_value (v : jval) (s : Schema) : Prop := exists o sch, v = JObj o /\ has o "schema" sch /\ schema_value sch s.
  Definition header_value (v : jval) (h : Header) : Prop := exists o sch,
    v = JObj o /\ says_flag o "required" (h_required h) /\ has o "schema" sch /\ schema_value sch (h_schema h).
  Definition response_value (v : jval) (r : Response) : Prop := exists o,
    v = JObj o /\ has o "description" (JStr "") /\ says_map header_value o "headers" (resp_headers r) /\ says_map media_value o "content" (resp_content r).
  Definition body_value (v : jval) (l : list (string * Schema)) : Prop := exists o, v = JObj o /\ says_map media_value o "content" l.
  Definition operation_value (v : jval) (x : Operation) : Prop := exists o,
    v = JObj o /\ says_text o "description" (op_description x) /\ says_text o "operationId" (op_id x) /\
    says_list parameter_value o "parameters" (op_parameters x) /\ says_opt body_value o "requestBody" (op_requestBody x) /\
    says_map response_value o "responses" (op_responses x).
  Definition path_value (v : jval) (p : PathItem) : Prop := exists o,
    v = JObj o /\ says_opt operation_value o "get" (pi_get p) /\ says_opt operation_value o "put" (pi_put p) /\
    says_opt operation_value o "post" (pi_post p) /\ says_opt operation_value o "delete" (pi_delete p) /\
    says_opt operation_value o "options" (pi_options p) /\ says_opt operation_value o "head" (pi_head p) /\
    says_opt operation_value o "patch" (pi_patch p) /\ says_opt operation_value o "trace" (pi_trace p).
  Definition server_value (v : jval) (url : string) : Prop := exists o, v = JObj o /\ says_text o "url" url.
  Definition document_value (v : jval) (d : Document) : Prop := exists o info contact license comps,
    v = JObj o /\ has o "openapi" (JStr "3.0.0") /\ has o "info" (JObj info) /\
    has info "title" (JStr (d_title d)) /\ says_text info "description" (d_description d) /\ has info "version" (JStr (d_version d)) /\
    has info "contact" (JObj contact) /\ says_text contact "name" (fst (fst (d_contact d))) /\ says_text contact "url" (snd (fst (d_contact d))) /\
    says_text contact "email" (snd (d_contact d)) /\
    has info "license" (JObj license) /\ has license "name" (JStr (fst (d_license d))) /\ says_text license "url" (snd (d_license d)) /\
    says_list server_value o "servers" (d_servers d) /\ says_map path_value o "paths" (d_paths d) /\
    has o "components" (JObj comps) /\ says_map schema_value comps "schemas" (d_schemas d).
End Reader.

(** ** The texts of a document *)
Definition enum_texts (e : enumval) : list string := match e with EStr s => [s] | _ => [] end.
Fixpoint schema_texts (s : Schema) : list string :=
  match s with
  | mkSchema ref t f _ enum allOf items props addl desc =>
      ([ref; t; f; desc] ++ flat_map enum_texts enum ++ flat_map schema_texts allOf
       ++ match items with None => [] | Some i => schema_texts i end
       ++ flat_map (fun kp => fst kp :: schema_texts (snd kp)) props
       ++ match addl with None => [] | Some a => schema_texts a end)%list
  end.
Definition keyed_texts {A} (T : A -> list string) (l : list (string * A)) : list string := flat_map (fun ka => fst ka :: T (snd ka)) l.
Definition parameter_texts (p : OParam) : list string := pa_name p :: pa_in p :: pa_style p :: schema_texts (pa_schema p).
Definition response_texts (r : Response) : list string :=
  (keyed_texts (fun h => schema_texts (h_schema h)) (resp_headers r) ++ keyed_texts schema_texts (resp_content r))%list.
Definition operation_texts (x : Operation) : list string :=
  (op_description x :: op_id x :: flat_map parameter_texts (op_parameters x)
   ++ match op_requestBody x with None => [] | Some l => keyed_texts schema_texts l end ++ keyed_texts response_texts (op_responses x))%list.
Definition operations (p : PathItem) : list Operation :=
  flat_map (fun x => match x with None => [] | Some o => [o] end)
    [pi_get p; pi_put p; pi_post p; pi_delete p; pi_options p; pi_head p; pi_patch p; pi_trace p].
Definition document_texts (d : Document) : list string :=
  ([d_title d; d_description d; d_version d; fst (fst (d_contact d)); snd (fst (d_contact d)); snd (d_contact d); fst (d_license d); snd (d_license d)]
   ++ d_servers d ++ keyed_texts (fun p => flat_map operation_texts (operations p)) (d_paths d) ++ keyed_texts schema_texts (d_schemas d))%list.

(** ** The enumerations of a document *)
Fixpoint schema_enums (s : Schema) : list enumval :=
  match s with
  | mkSchema _ _ _ _ enum allOf items props addl _ =>
      (enum ++ flat_map schema_enums allOf ++ match items with None => [] | Some i => schema_enums i end
       ++ flat_map (fun kp => schema_enums (snd kp)) props ++ match addl with None => [] | Some a => schema_enums a end)%list
  end.
Definition response_schemas (r : Response) : list Schema := (map (fun kh => h_schema (snd kh)) (resp_headers r) ++ map snd (resp_content r))%list.
Definition operation_schemas (x : Operation) : list Schema :=
  (map pa_schema (op_parameters x) ++ match op_requestBody x with None => [] | Some l => map snd l end
   ++ flat_map (fun kr => response_schemas (snd kr)) (op_responses x))%list.
Definition document_schemas (d : Document) : list Schema :=
  (flat_map (fun kp => flat_map operation_schemas (operations (snd kp))) (d_paths d) ++ map snd (d_schemas d))%list.
(** No enumeration has a value from a floating point literal: their digits are not kept (1.0 is written as 1). *)
Definition exact_schema (s : Schema) : Prop := forall t, ~ In (EFloat t) (schema_enums s).
Definition exact_document (d : Document) : Prop := Forall exact_schema (document_schemas d).
