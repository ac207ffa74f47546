(** What the bytes of a cache and of an Azure function say, by the names of the members. *)
From Coq Require Import List String Ascii Bool ZArith Arith Permutation.
From Verif Require Import BaseStr BaseMap M_Types M_OpenAPI M_Service M_Json S_Cache S_Json S_JsonOut.
Import ListNotations.
Local Open Scope string_scope.

(** A map that is always there, null if it is empty. *)
Definition says_table {A} (R : jval -> A -> Prop) (o : obj) (k : string) (l : list (string * A)) : Prop :=
  (exists vs l', has o k (JObj vs) /\ Permutation l l' /\ Forall2 (keyed R) vs l') \/ (has o k JNull /\ l = []).
Definition says (o : obj) (k s : string) : Prop := has o k (JStr s).

Definition mode_value (v : jval) (mode : string) : Prop := exists o, v = JObj o /\ says o "mode" mode.
Definition cfg_value (v : jval) (c : cfgval) : Prop := match c with VStr s => v = JStr s | VAny => forall s, v <> JStr s end.
Definition outputEntry_value (v : jval) (mc : string * list (string * cfgval)) : Prop := exists o,
  v = JObj o /\ says o "mode" (fst mc) /\ says_table cfg_value o "configuration" (snd mc).
Definition config_value (v : jval) (c : Config) : Prop := exists o ct li t, v = JObj o /\
  says o "title" (c_title c) /\ says o "description" (c_description c) /\ says o "version" (c_version c) /\
  has o "contact" (JObj ct) /\ says ct "name" (fst (fst (c_contact c))) /\ says ct "url" (snd (fst (c_contact c))) /\ says ct "email" (snd (c_contact c)) /\
  has o "license" (JObj li) /\ says li "name" (fst (c_license c)) /\ says li "url" (snd (c_license c)) /\
  has o "secure" (JBool (c_secure c)) /\ says o "host" (c_host c) /\ says o "basePath" (c_basePath c) /\ has o "port" (JNum t) /\ integer t (c_port c).
Definition typeFormat_value (v : jval) (t : TypeFormat) : Prop := exists o, v = JObj o /\ says o "Type" (tf_type t) /\ says o "Format" (tf_format t).

(** A value of type any, as encoding/json reads it: numbers are float64. *)
Definition any_value (float : string -> string) (v : jval) (e : enumval) : Prop :=
  match e with
  | EStr s => v = JStr s
  | EBool b => v = JBool b
  | EInt _ => False
  | EFloat t => (exists u z, v = JNum u /\ integer u z /\ t = itoa (float_round z)) \/ v = JNum (float t)
  end.

Definition cached_value (float : string -> string) (v : jval) (c : Cached) : Prop := exists o, v = JObj o /\
  says_slice mode_value o "inputs" (ca_inputs c) /\ says_slice outputEntry_value o "outputs" (ca_outputs c) /\
  ((exists w x, has o "config" w /\ ca_config c = Some x /\ config_value w x) \/ (has o "config" JNull /\ ca_config c = None)) /\
  says_slice (route_value (any_value float)) o "routes" (ca_routes c) /\
  says_slice (field_value (any_value float)) o "components" (ca_components c) /\
  says_table typeFormat_value o "custom_type_mapping" (ca_customTypes c).

(** The same data with maps listed in another order. *)
Definition same_data (c c' : Cached) : Prop :=
  ca_inputs c = ca_inputs c' /\ Forall2 (fun x y => fst x = fst y /\ Permutation (snd x) (snd y)) (ca_outputs c) (ca_outputs c') /\
  ca_config c = ca_config c' /\ Forall2 same_route (ca_routes c) (ca_routes c') /\ Forall2 same_field (ca_components c) (ca_components c') /\
  Permutation (ca_customTypes c) (ca_customTypes c').

(** Maps have each key once, also when their keys have become text. *)
Definition keys_once {A} (l : list (string * A)) : Prop := NoDup (map (fun ka => json_string (fst ka)) l).
Definition text_once (f : Field) : Prop := keys_once (f_structFields f) /\ keys_once (f_bindingTags f) /\ keys_once (f_validationTags f).

(** An Azure function (Azure Functions, function.json): the bindings, in order. *)
Definition binding_value (v : jval) (type direction name : string) (methods : list string) (route : string) : Prop := exists o,
  v = JObj o /\ says o "type" type /\ says o "direction" direction /\ says o "name" name /\
  says_list (fun w m => w = JStr m) o "methods" methods /\ says_text o "route" route.
Definition function_value (v : jval) (methods : list string) (route : string) : Prop := exists o x y,
  v = JObj o /\ has o "bindings" (JArr [x; y]) /\ binding_value x "httpTrigger" "in" "req" methods route /\ binding_value y "http" "out" "res" [] "".

(** Values of an output's configuration that are no strings: null, booleans and numbers. *)
Definition scalar (v : jval) : Prop := match v with JNull => True | JBool _ => True | JNum t => number t | _ => False end.
(** The cached parts of a service, as they are. *)
Definition verbatim (s : Service) : Cached :=
  mkCached (map in_mode (sv_inputs s)) (map (fun o => (out_mode o, out_config o)) (sv_outputs s)) (sv_config s) (sv_routes s) (sv_components s) (sv_customTypes s).
