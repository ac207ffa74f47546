(** The text of a document in JSON: the struct tags of outputs/openapi/types.go and encoding/json. *)
From Coq Require Import List String Ascii Bool ZArith Arith.
From Verif Require Import BaseStr BaseMap M_Types M_OpenAPI M_Service.
Import ListNotations.
Local Open Scope string_scope.

(** A JSON value.  A number is its text. *)
Inductive jval :=
| JNull | JBool (b : bool) | JNum (text : string) | JStr (s : string)
| JArr (l : list jval) | JObj (l : list (string * jval)).

(** ** outputs/openapi/types.go: which members are written *)

(** Members with omitempty: left out if empty.  Members that are structs are never empty. *)
Definition text_member (key s : string) : list (string * jval) := if String.eqb s "" then [] else [(key, JStr s)].
(** A bool. *)
Definition flag_member (key : string) (b : bool) : list (string * jval) := if b then [(key, JBool true)] else [].
(** An integer. *)
Definition int_member (key : string) (z : Z) : list (string * jval) := if Z.eqb z 0 then [] else [(key, JNum (itoa z))].
(** A slice. *)
Definition list_member (key : string) (l : list jval) : list (string * jval) := match l with [] => [] | _ => [(key, JArr l)] end.
(** A map. *)
Definition map_member (key : string) (l : list (string * jval)) : list (string * jval) := match l with [] => [] | _ => [(key, JObj l)] end.
(** A pointer. *)
Definition opt_member (key : string) (v : option jval) : list (string * jval) := match v with None => [] | Some x => [(key, x)] end.

Section Marshal.
  (** How encoding/json writes the float64 of a literal (floatEncoder); given. *)
  Context (float : string -> string).

  (** Schema.Enum, types.go:184: values of type any, by their kind. *)
  Definition enum_json (e : enumval) : jval :=
    match e with EStr s => JStr s | EInt z => JNum (itoa z) | EBool b => JBool b | EFloat t => JNum (float t) end.

  (** outputs/openapi/types.go:167-196, the members the code sets, in order. *)
  Fixpoint schema_json (s : Schema) : jval :=
    match s with
    | mkSchema ref t f ml enum allOf items props addl desc =>
        JObj (text_member "$ref" ref ++ int_member "maxLength" ml ++ list_member "enum" (map enum_json enum)
              ++ text_member "type" t ++ text_member "format" f ++ list_member "allOf" (map schema_json allOf)
              ++ opt_member "items" (match items with None => None | Some i => Some (schema_json i) end)
              ++ map_member "properties" (map (fun kp => (fst kp, schema_json (snd kp))) props)
              ++ opt_member "additionalProperties" (match addl with None => None | Some a => Some (schema_json a) end)
              ++ text_member "description" desc)%list
    end.

  (** outputs/openapi/types.go:83-94 *)
  Definition parameter_json (p : OParam) : jval :=
    JObj (text_member "name" (pa_name p) ++ text_member "in" (pa_in p) ++ flag_member "required" (pa_required p)
          ++ text_member "style" (pa_style p) ++ flag_member "explode" (pa_explode p) ++ [("schema", schema_json (pa_schema p))])%list.

  (** outputs/openapi/types.go:105-108 *)
  Definition media_json (s : Schema) : jval := JObj [("schema", schema_json s)].
  Definition content_json (l : list (string * Schema)) : list (string * jval) := map (fun ks => (fst ks, media_json (snd ks))) l.

  (** outputs/openapi/types.go:97-102 *)
  Definition body_json (l : list (string * Schema)) : jval := JObj (map_member "content" (content_json l)).

  (** outputs/openapi/types.go:117-124 *)
  Definition header_json (h : Header) : jval := JObj (flag_member "required" (h_required h) ++ [("schema", schema_json (h_schema h))])%list.

  (** outputs/openapi/types.go:130-135; the description is always empty (generate.go:194) and always written. *)
  Definition response_json (r : Response) : jval :=
    JObj (("description", JStr "") :: map_member "headers" (map (fun kh => (fst kh, header_json (snd kh))) (resp_headers r))
          ++ map_member "content" (content_json (resp_content r)))%list.

  (** outputs/openapi/types.go:66-80 *)
  Definition operation_json (o : Operation) : jval :=
    JObj (text_member "description" (op_description o) ++ text_member "operationId" (op_id o)
          ++ list_member "parameters" (map parameter_json (op_parameters o))
          ++ opt_member "requestBody" (match op_requestBody o with None => None | Some l => Some (body_json l) end)
          ++ map_member "responses" (map (fun kr => (fst kr, response_json (snd kr))) (op_responses o)))%list.

  (** outputs/openapi/types.go:49-63 *)
  Definition operation_member (key : string) (o : option Operation) : list (string * jval) :=
    opt_member key (match o with None => None | Some x => Some (operation_json x) end).
  Definition path_json (p : PathItem) : jval :=
    JObj (operation_member "get" (pi_get p) ++ operation_member "put" (pi_put p) ++ operation_member "post" (pi_post p)
          ++ operation_member "delete" (pi_delete p) ++ operation_member "options" (pi_options p) ++ operation_member "head" (pi_head p)
          ++ operation_member "patch" (pi_patch p) ++ operation_member "trace" (pi_trace p))%list.

  (** outputs/openapi/types.go:19-43 *)
  Definition contact_json (c : string * string * string) : jval :=
    JObj (text_member "name" (fst (fst c)) ++ text_member "url" (snd (fst c)) ++ text_member "email" (snd c))%list.
  Definition license_json (l : string * string) : jval := JObj (("name", JStr (fst l)) :: text_member "url" (snd l)).
  Definition server_json (url : string) : jval := JObj (text_member "url" url).

  (** outputs/openapi/types.go:4-26, with the version of generate.go:280. *)
  Definition document_json (d : Document) : jval :=
    JObj (("openapi", JStr "3.0.0")
          :: ("info", JObj (("title", JStr (d_title d)) :: text_member "description" (d_description d)
                            ++ [("contact", contact_json (d_contact d)); ("license", license_json (d_license d)); ("version", JStr (d_version d))])%list)
          :: list_member "servers" (map server_json (d_servers d))
          ++ map_member "paths" (map (fun kp => (fst kp, path_json (snd kp))) (d_paths d))
          ++ [("components", JObj (map_member "schemas" (map (fun ks => (fst ks, schema_json (snd ks))) (d_schemas d))))])%list.
End Marshal.

(** ** encoding/json: the text of a value *)

(** A digit of a \u escape. *)
Definition hex_digit (n : nat) : ascii := ascii_of_nat (if Nat.ltb n 10 then 48 + n else 87 + n).
(** A byte below 0x80 that is written as an escape with four digits. *)
Definition unicode_escape (n : nat) (r : string) : string :=
  "\u00" ++ String (hex_digit (n / 16)) (String (hex_digit (n mod 16)) r).
(** encode.go (appendString, htmlSafeSet): one byte below 0x80.  [short] is for the releases from Go 1.22 on, which
    write backspace and form feed as escapes of one letter. *)
Definition ascii_text (short : bool) (c : ascii) (r : string) : string :=
  let n := nat_of_ascii c in
  if Nat.eqb n 34 || Nat.eqb n 92 then String "\" (String c r)
  else if Nat.eqb n 10 then "\n" ++ r
  else if Nat.eqb n 13 then "\r" ++ r
  else if Nat.eqb n 9 then "\t" ++ r
  else if short && Nat.eqb n 8 then "\b" ++ r
  else if short && Nat.eqb n 12 then "\f" ++ r
  else if Nat.ltb n 32 || Nat.eqb n 38 || Nat.eqb n 60 || Nat.eqb n 62 then unicode_escape n r
  else String c r.
(** The text between the quotes: bytes that are not part of a valid UTF-8 sequence are written as an escape of
    U+FFFD, and so are the line separators U+2028 and U+2029. *)
Fixpoint chars_text (short : bool) (s : string) : string :=
  match s with
  | EmptyString => EmptyString
  | String c r =>
      let n := nat_of_ascii c in
      if Nat.ltb n 128 then ascii_text short c (chars_text short r)
      else if Nat.leb 194 n && Nat.leb n 223 then
        match r with
        | String d r1 => if is_cont 128 191 d then String c (String d (chars_text short r1)) else "\ufffd" ++ chars_text short r
        | EmptyString => "\ufffd"
        end
      else if Nat.leb 224 n && Nat.leb n 239 then
        match r with
        | String d (String e r2) =>
            if is_cont (if Nat.eqb n 224 then 160 else 128) (if Nat.eqb n 237 then 159 else 191) d && is_cont 128 191 e
            then if Nat.eqb n 226 && Nat.eqb (nat_of_ascii d) 128 && (Nat.eqb (nat_of_ascii e) 168 || Nat.eqb (nat_of_ascii e) 169)
                 then "\u202" ++ String (hex_digit (nat_of_ascii e - 160)) (chars_text short r2)
                 else String c (String d (String e (chars_text short r2)))
            else "\ufffd" ++ chars_text short r
        | _ => "\ufffd" ++ chars_text short r
        end
      else if Nat.leb 240 n && Nat.leb n 244 then
        match r with
        | String d (String e (String f r3)) =>
            if is_cont (if Nat.eqb n 240 then 144 else 128) (if Nat.eqb n 244 then 143 else 191) d
               && is_cont 128 191 e && is_cont 128 191 f
            then String c (String d (String e (String f (chars_text short r3)))) else "\ufffd" ++ chars_text short r
        | _ => "\ufffd" ++ chars_text short r
        end
      else "\ufffd" ++ chars_text short r
  end.
(** The double quote. *)
Definition quote_byte : ascii := ascii_of_nat 34.
(** A string with its quotes. *)
Definition string_text (short : bool) (s : string) : string := String quote_byte (chars_text short s ++ String quote_byte "").

(** indent.go: a new line with two spaces for each level. *)
Fixpoint spaces (n : nat) : string := match n with O => "" | S k => "  " ++ spaces k end.
(** A new line and its indentation. *)
Definition newline (depth : nat) : string := String (ascii_of_nat 10) (spaces depth).

(** json.MarshalIndent(v, "", "  ") of a value; the code that writes it compactly first and then adds the white space
    is one step here. *)
Fixpoint value_text (short : bool) (depth : nat) (v : jval) : string :=
  match v with
  | JNull => "null"
  | JBool true => "true"
  | JBool false => "false"
  | JNum t => t
  | JStr s => string_text short s
  | JArr [] => "[]"
  | JArr l => "[" ++ newline (S depth) ++ join ("," ++ newline (S depth)) (map (value_text short (S depth)) l) ++ newline depth ++ "]"
  | JObj [] => "{}"
  | JObj l => "{" ++ newline (S depth)
              ++ join ("," ++ newline (S depth)) (map (fun kv => string_text short (fst kv) ++ ": " ++ value_text short (S depth) (snd kv)) l)
              ++ newline depth ++ "}"
  end.

(** outputs/openapi/generate.go:308-309: the bytes of a document in JSON. *)
Definition document_text (short : bool) (float : string -> string) (d : Document) : string :=
  value_text short 0 (document_json float d).
