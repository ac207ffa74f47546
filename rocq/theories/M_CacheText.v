(** The bytes of a JSON cache and of an Azure function: struct tags of service.go, input.go, output.go, config.go and
    outputs/azureFunctions/generate.go, encoding/json. *)
From Coq Require Import List String Ascii Bool ZArith Arith.
From Verif Require Import BaseStr BaseMap M_Types M_OpenAPI M_Service M_Json M_JsonOut.
Import ListNotations.
Local Open Scope string_scope.

(** json.Marshal of a value: no white space. *)
Fixpoint compact_text (short : bool) (v : jval) : string :=
  match v with
  | JNull => "null"
  | JBool true => "true"
  | JBool false => "false"
  | JNum t => t
  | JStr s => string_text short s
  | JArr l => "[" ++ join "," (map (compact_text short) l) ++ "]"
  | JObj l => "{" ++ join "," (map (fun kv => string_text short (fst kv) ++ ":" ++ compact_text short (snd kv)) l) ++ "}"
  end.

Section Marshal.
  (** How encoding/json writes the float64 of a literal; given. *)
  Context (float : string -> string).
  (** Which empty slices and maps are nil, by the name of their member (for the configurations of all outputs alike). *)
  Context (nil : string -> bool).
  (** How a value of an output's configuration that is no string is written, by its key. *)
  Context (other : string -> jval).

  (** A map without omitempty: null if it is nil. *)
  Definition table_json (is_nil : bool) (l : list (string * jval)) : jval :=
    match l with [] => if is_nil then JNull else JObj [] | _ => JObj (sort_keys l) end.
  (** input.go:4-8, output.go:5-9, io.go:17; the functions have the tag of a single dash. *)
  Definition input_json (i : Input) : jval := JObj [("mode", JStr (in_mode i))].
  Definition cfg_json (kv : string * cfgval) : string * jval := (fst kv, match snd kv with VStr s => JStr s | VAny => other (fst kv) end).
  Definition outputEntry_json (o : Output) : jval :=
    JObj [("mode", JStr (out_mode o)); ("configuration", table_json (nil "configuration") (map cfg_json (out_config o)))].
  (** config.go:5-27 *)
  Definition config_json (c : Config) : jval :=
    JObj [("title", JStr (c_title c)); ("description", JStr (c_description c)); ("version", JStr (c_version c));
          ("contact", JObj [("name", JStr (fst (fst (c_contact c)))); ("url", JStr (snd (fst (c_contact c)))); ("email", JStr (snd (c_contact c)))]);
          ("license", JObj [("name", JStr (fst (c_license c))); ("url", JStr (snd (c_license c)))]);
          ("secure", JBool (c_secure c)); ("host", JStr (c_host c)); ("basePath", JStr (c_basePath c)); ("port", JNum (itoa (c_port c)))].
  (** formatTypes.go:6-9: no tags, so the names of the fields. *)
  Definition typeFormat_json (t : TypeFormat) : jval := JObj [("Type", JStr (tf_type t)); ("Format", JStr (tf_format t))].
  (** service.go:20-47: the exported fields without the tag of a single dash. *)
  Definition service_json (s : Service) : jval :=
    JObj [("inputs", slice_json (nil "inputs") (map input_json (sv_inputs s)));
          ("outputs", slice_json (nil "outputs") (map outputEntry_json (sv_outputs s)));
          ("config", match sv_config s with None => JNull | Some c => config_json c end);
          ("routes", slice_json (nil "routes") (map (route_json float) (sv_routes s)));
          ("components", slice_json (nil "components") (map (field_json float) (sv_components s)));
          ("custom_type_mapping", table_json (nil "custom_type_mapping") (map (fun kt => (fst kt, typeFormat_json (snd kt))) (sv_customTypes s)))].
End Marshal.

(** cache.go:46: the bytes of a JSON cache. *)
Definition cache_text (short : bool) (float : string -> string) (nil : string -> bool) (other : string -> jval) (s : Service) : string :=
  compact_text short (service_json float nil other s).

(** outputs/azureFunctions/generate.go:15-25 and 51-64: the two bindings of a function. *)
Definition binding_json (type direction name : string) (methods : list string) (route : string) : jval :=
  JObj ([("type", JStr type); ("direction", JStr direction); ("name", JStr name)]
        ++ list_member "methods" (map JStr methods) ++ text_member "route" route)%list.
(** outputs/azureFunctions/generate.go:50-65: the output of one function. *)
Definition function_json (methods : list string) (route : string) : jval :=
  JObj [("bindings", JArr [binding_json "httpTrigger" "in" "req" methods route; binding_json "http" "out" "res" [] ""])].
(** outputs/azureFunctions/generate.go:68 *)
Definition function_text (short : bool) (methods : list string) (route : string) : string := value_text short 0 (function_json methods route).
