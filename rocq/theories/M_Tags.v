(** Struct tags and binding tags: astTraversal/tags.go, bindingTags.go, with the parts of
    package reflect and strconv they rest on. *)
From Coq Require Import List String Ascii Bool ZArith Arith.
From Verif Require Import BaseStr BaseMap M_Types.
Import ListNotations.
Local Open Scope string_scope.

(** ** strconv.Unquote on a double-quoted string *)

(** A hexadecimal digit. *)
Definition hex_val (c : ascii) : option nat :=
  let n := nat_of_ascii c in
  if Nat.leb 48 n && Nat.leb n 57 then Some (n - 48)
  else if Nat.leb 97 n && Nat.leb n 102 then Some (n - 87)
  else if Nat.leb 65 n && Nat.leb n 70 then Some (n - 55)
  else None.

(** An octal digit. *)
Definition oct_val (c : ascii) : option nat :=
  let n := nat_of_ascii c in
  if Nat.leb 48 n && Nat.leb n 55 then Some (n - 48) else None.

(** The value of the first [k] digits, and what follows them. *)
Fixpoint digits (dv : ascii -> option nat) (base : N) (k : nat) (acc : N) (s : string)
  : option (N * string) :=
  match k with
  | O => Some (acc, s)
  | S k' =>
      match s with
      | EmptyString => None
      | String c r =>
          match dv c with
          | Some d => digits dv base k' (acc * base + N.of_nat d)%N r
          | None => None
          end
      end
  end.

(** A string of one byte. *)
Definition byte_of (n : N) : string := str1 (ascii_of_N n).

(** utf8.EncodeRune; a surrogate or a value beyond 0x10FFFF is an error in strconv. *)
Definition utf8 (n : N) : option string :=
  if N.ltb n 128 then Some (byte_of n)
  else if N.ltb n 2048 then Some (byte_of (192 + n / 64) ++ byte_of (128 + n mod 64))
  else if N.leb 55296 n && N.leb n 57343 then None
  else if N.ltb n 65536 then
    Some (byte_of (224 + n / 4096) ++ byte_of (128 + (n / 64) mod 64) ++ byte_of (128 + n mod 64))
  else if N.ltb n 1114112 then
    Some (byte_of (240 + n / 262144) ++ byte_of (128 + (n / 4096) mod 64)
          ++ byte_of (128 + (n / 64) mod 64) ++ byte_of (128 + n mod 64))
  else None.

(** A new line. *)
Definition newline : ascii := ascii_of_nat 10.
(** A backslash. *)
Definition backslash : ascii := ascii_of_nat 92.
(** A double quote. *)
Definition dquote : ascii := ascii_of_nat 34.
(** The control character 127. *)
Definition del : ascii := ascii_of_nat 127.

(** The single-character escapes of strconv.UnquoteChar; a single quote may not be escaped in a
    double-quoted string. *)
Definition simple_escape (c : ascii) : option ascii :=
  match nat_of_ascii c with
  | 97 => Some (ascii_of_nat 7) | 98 => Some (ascii_of_nat 8) | 102 => Some (ascii_of_nat 12)
  | 110 => Some (ascii_of_nat 10) | 114 => Some (ascii_of_nat 13) | 116 => Some (ascii_of_nat 9)
  | 118 => Some (ascii_of_nat 11) | 92 => Some backslash | 34 => Some dquote
  | _ => None
  end.

(** Text put before a result. *)
Definition cons_opt (p : string) (o : option string) : option string :=
  match o with Some s => Some (p ++ s) | None => None end.

(** The text between the quotes.  [fuel] is the number of bytes left.  Simplification: bytes
    above 127 are copied, while Go replaces invalid UTF-8 by U+FFFD. *)
Fixpoint unquote_body (fuel : nat) (s : string) : option string :=
  match fuel with
  | O => match s with EmptyString => Some EmptyString | _ => None end
  | S fuel' =>
      match s with
      | EmptyString => Some EmptyString
      | String c r =>
          if Ascii.eqb c newline || Ascii.eqb c dquote then None
          else if negb (Ascii.eqb c backslash) then cons_opt (str1 c) (unquote_body fuel' r)
          else match r with
               | EmptyString => None
               | String e r' =>
                   match simple_escape e with
                   | Some x => cons_opt (str1 x) (unquote_body fuel' r')
                   | None =>
                       let after o := match o with
                                      | Some (n, rest) =>
                                          match utf8 n with
                                          | Some u => cons_opt u (unquote_body fuel' rest)
                                          | None => None
                                          end
                                      | None => None
                                      end in
                       if Ascii.eqb e "x" then
                         match digits hex_val 16 2 0 r' with
                         | Some (n, rest) => cons_opt (byte_of n) (unquote_body fuel' rest)
                         | None => None
                         end
                       else if Ascii.eqb e "u" then after (digits hex_val 16 4 0 r')
                       else if Ascii.eqb e "U" then after (digits hex_val 16 8 0 r')
                       else match digits oct_val 8 3 0 r with
                            | Some (n, rest) =>
                                if N.leb n 255 then cons_opt (byte_of n) (unquote_body fuel' rest)
                                else None
                            | None => None
                            end
                   end
               end
      end
  end.

(** strconv.Unquote without the outer quotes. *)
Definition unquote (body : string) : option string := unquote_body (String.length body) body.

(** ** reflect.StructTag.Lookup *)

(** Leading spaces skipped. *)
Fixpoint skip_spaces (s : string) : string :=
  match s with
  | String c r => if Ascii.eqb c " " then skip_spaces r else s
  | EmptyString => EmptyString
  end.

(** A byte of a tag key: above space, and not a colon, a double quote or DEL. *)
Definition key_char (c : ascii) : bool :=
  Nat.ltb 32 (nat_of_ascii c) && negb (Ascii.eqb c ":") && negb (Ascii.eqb c dquote)
  && negb (Ascii.eqb c del).

(** The longest prefix of key bytes, and the rest. *)
Fixpoint scan_key (s : string) : string * string :=
  match s with
  | String c r => if key_char c then let (k, t) := scan_key r in (String c k, t) else ("", s)
  | EmptyString => ("", "")
  end.

(** After the opening quote: the text up to the closing quote (a backslash hides the byte after
    it), and what follows the closing quote. *)
Fixpoint scan_quoted (s : string) : option (string * string) :=
  match s with
  | EmptyString => None
  | String c r =>
      if Ascii.eqb c dquote then Some ("", r)
      else if Ascii.eqb c backslash then
        match r with
        | EmptyString => None
        | String d r' =>
            match scan_quoted r' with
            | Some (b, t) => Some (String c (String d b), t)
            | None => None
            end
        end
      else match scan_quoted r with
           | Some (b, t) => Some (String c b, t)
           | None => None
           end
  end.

(** reflect.StructTag.Lookup.  Every round of the Go loop consumes at least three bytes;
    [fuel] bounds the rounds. *)
Fixpoint lookup_tag (fuel : nat) (tag key : string) : option string :=
  match fuel with
  | O => None
  | S fuel' =>
      let (name, rest) := scan_key (skip_spaces tag) in
      match name, rest with
      | EmptyString, _ => None
      | _, String colon (String quote after) =>
          if Ascii.eqb colon ":" && Ascii.eqb quote dquote then
            match scan_quoted after with
            | None => None
            | Some (body, tag') =>
                if String.eqb key name then unquote body
                else lookup_tag fuel' tag' key
            end
          else None
      | _, _ => None
      end
  end.

(** With enough fuel. *)
Definition Lookup (tag key : string) : option string := lookup_tag (S (String.length tag)) tag key.

(** reflect.StructTag.Get *)
Definition TagGet (tag key : string) : string :=
  match Lookup tag key with Some v => v | None => "" end.

(** ** astTraversal/tags.go *)

(** astTraversal/tags.go:54-69: the binding for one tag value. *)
Definition newBindingTag (field tagValue : string) : BindingTag :=
  let tagItems := split "," tagValue in
  let first := hd "" tagItems in
  let optional := match tagItems with _ :: second :: _ => String.eqb second "omitempty" | _ => false end in
  if String.eqb first "" then mkBT field false optional
  else if negb (String.eqb first "-") then mkBT first false optional
  else mkBT "" true optional.

(** astTraversal/tags.go:48-72.  A Go map filled in this order; the keys are distinct. *)
Fixpoint parseBindings (field tag : string) (types : list string) : BindingTagMap :=
  match types with
  | [] => []
  | t :: ts =>
      match Lookup tag t with
      | None => parseBindings field tag ts
      | Some v => (t, newBindingTag field v) :: parseBindings field tag ts
      end
  end.

(** astTraversal/tags.go:32-38 *)
Definition ValidationTags : list string := ["binding"; "validate"].

(** astTraversal/tags.go:77-87 *)
Fixpoint parseValidations (tag : string) (types : list string) : list (string * bool) :=
  match types with
  | [] => []
  | t :: ts =>
      let v := TagGet tag t in
      if String.eqb v "" then parseValidations tag ts
      else (t, contains "required" v) :: parseValidations tag ts
  end.

(** astTraversal/tags.go:46-90 *)
Definition ParseStructTag (field tag : string) : BindingTagMap * list (string * bool) :=
  let b := parseBindings field tag BindingTags in
  (match b with [] => [(NoBindingTag, mkBT field false false)] | _ => b end,
   parseValidations tag ValidationTags).

(** ** bindingTags.go *)

(** bindingTags.go:13-23: the loop over the bindings of one field, in iteration order.
    State: the list of types, the verdict, the previous tag. *)
Fixpoint extractField (m : BindingTagMap) (types : list string) (uniq : bool) (previous : BindingTag)
  : list string * bool :=
  match m with
  | [] => (types, uniq)
  | (t, b) :: rest =>
      let uniq' := if negb (bt_eqb previous bt_zero) && negb uniq then negb (bt_eqb b previous) else uniq in
      let types' := if str_in t types then types else (types ++ [t])%list in
      extractField rest types' uniq' b
  end.

(** bindingTags.go:11-24 *)
Fixpoint extractFields (fields : list (string * Field)) (types : list string) (uniq : bool)
  : list string * bool :=
  match fields with
  | [] => (types, uniq)
  | (_, f) :: rest =>
      let (types', uniq') := extractField (f_bindingTags f) types uniq bt_zero in
      extractFields rest types' uniq'
  end.

(** bindingTags.go:10-31 *)
Definition ExtractBindingTags (fields : list (string * Field)) : list string * bool :=
  let (types, uniq) := extractFields fields [] false in
  match types with
  | [] => (BindingTags, uniq)
  | _ => (types, uniq)
  end.

(** bindingTags.go:33-43 *)
Definition ContentTypeToBindingTag (contentType : string) : string :=
  if String.eqb contentType "application/json" then JSONBindingTag
  else if String.eqb contentType "application/xml" then XMLBindingTag
  else if String.eqb contentType "application/x-www-form-urlencoded" then FormBindingTag
  else if String.eqb contentType "multipart/form-data" then FormBindingTag
  else if String.eqb contentType "application/yaml" then YAMLBindingTag
  else NoBindingTag.

(** bindingTags.go:45-54 *)
Definition BindingTagToContentTypes (bindingTag : string) : list string :=
  if String.eqb bindingTag JSONBindingTag then ["application/json"]
  else if String.eqb bindingTag XMLBindingTag then ["application/xml"]
  else if String.eqb bindingTag FormBindingTag then
    ["application/x-www-form-urlencoded"; "multipart/form-data"]
  else if String.eqb bindingTag YAMLBindingTag then ["application/yaml"]
  else [].
