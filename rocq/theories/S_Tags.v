(** Specifications for struct tags and binding tags. *)
From Coq Require Import List String Ascii Bool ZArith Arith Permutation.
From Verif Require Import BaseStr BaseMap M_Types M_Tags.
Import ListNotations.
Local Open Scope string_scope.

(** A tag key: non-empty, made of key bytes. *)
Fixpoint all_key (s : string) : Prop :=
  match s with EmptyString => True | String c r => key_char c = true /\ all_key r end.

(** The text of a quoted string between its quotes: no bare double quote, and every backslash is
    followed by the byte it escapes. *)
Inductive quoted_text : string -> Prop :=
| qt_nil : quoted_text ""
| qt_char c s : c <> dquote -> c <> backslash -> quoted_text s -> quoted_text (String c s)
| qt_esc d s : quoted_text s -> quoted_text (String backslash (String d s)).

Fixpoint spaces (n : nat) : string := match n with O => "" | S k => String " " (spaces k) end.

(** One pair of a struct tag: spaces, key, colon, quoted text. *)
Definition tag_pair (n : nat) (key text : string) : string :=
  spaces n ++ key ++ String ":" (String dquote (text ++ str1 dquote)).

(** [tag_has tag k v]: the first pair for key [k] in the conventional tag [tag] has value [v]. *)
Inductive tag_has : string -> string -> string -> Prop :=
| th_here n k text rest v :
    k <> "" -> all_key k -> quoted_text text -> unquote text = Some v ->
    tag_has (tag_pair n k text ++ rest) k v
| th_later n k' text rest k v :
    k' <> "" -> all_key k' -> quoted_text text -> k' <> k -> tag_has rest k v ->
    tag_has (tag_pair n k' text ++ rest) k v.

(** What the encoder of a binding tag does with a field, given the tag value: [None] if it skips
    the field, else the name it uses (encoding/json, encoding/xml and gin's form, uri and header
    binding: the field name by default; yaml.v3: the lower-cased field name). *)
Definition before_comma (v : string) : string := hd "" (split "," v).
Definition encoder_name (key field v : string) : option string :=
  if String.eqb v "-" then None
  else if String.eqb (before_comma v) "" then
    Some (if String.eqb key YAMLBindingTag then to_lower field else field)
  else Some (before_comma v).

(** Two iteration orders of the same struct fields. *)
Definition same_field_reordered (a b : string * Field) : Prop :=
  fst a = fst b /\ Permutation (f_bindingTags (snd a)) (f_bindingTags (snd b)).
Definition reordered (l l' : list (string * Field)) : Prop :=
  exists l1, Permutation l l1 /\ Forall2 same_field_reordered l1 l'.

Definition has_tag (fields : list (string * Field)) (t : string) : Prop :=
  exists k f b, In (k, f) fields /\ In (t, b) (f_bindingTags f).

(** Some field has two different bindings. *)
Definition bindings_differ (fields : list (string * Field)) : Prop :=
  exists k f t1 b1 t2 b2, In (k, f) fields /\ In (t1, b1) (f_bindingTags f) /\
    In (t2, b2) (f_bindingTags f) /\ b1 <> b2.

(** The bindings of every field came from parsing a struct tag of a named field, in some
    iteration order. *)
Definition parsed_fields (fields : list (string * Field)) : Prop :=
  forall k f, In (k, f) fields ->
    exists name tag, name <> "" /\ Permutation (fst (ParseStructTag name tag)) (f_bindingTags f).
