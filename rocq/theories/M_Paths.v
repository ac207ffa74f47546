(** utils/pathParams.go and the path conversion of outputs/openapi/generate.go:46-52. *)
From Coq Require Import List String Ascii Bool ZArith.
From Verif Require Import BaseStr M_Types.
Import ListNotations.
Local Open Scope string_scope.

(** The longest prefix without '/', and the rest: what [^\/]+ takes, greedily. The class is
    over runes; '/' is ASCII and occurs inside no multi-byte rune, so bytes give the same. *)
Fixpoint span_nonslash (s : string) : string * string :=
  match s with
  | EmptyString => (EmptyString, EmptyString)
  | String c r =>
      if Ascii.eqb c "/" then (EmptyString, s)
      else let (a, b) := span_nonslash r in (String c a, b)
  end.

(** The class [:*] of the regular expression. *)
Definition is_marker (c : ascii) : bool := Ascii.eqb c ":" || Ascii.eqb c "*".

(** One attempt of the regular expression  :[^\/]+|\*[^\/]+  (utils/pathParams.go:13) at the
    start of [s]: the matched text and the rest. *)
Definition match_at (s : string) : option (string * string) :=
  match s with
  | EmptyString => None
  | String c r =>
      if is_marker c then
        let (n, rest) := span_nonslash r in
        if String.eqb n "" then None else Some (String c n, rest)
      else None
  end.

(** The leftmost, non-overlapping matches of regexp.FindAllString(-1) / ReplaceAllStringFunc,
    with the bytes between them: [inr] is a match, [inl] a byte outside every match. *)
Fixpoint find_all (fuel : nat) (s : string) : list (ascii + string) :=
  match fuel with
  | O => []
  | S n =>
      match s with
      | EmptyString => []
      | String c r =>
          match match_at s with
          | Some (m, rest) => inr m :: find_all n rest
          | None => inl c :: find_all n r
          end
      end
  end.

(** One more step of fuel than bytes is always enough: every step consumes a byte. *)
Definition regex_pieces (s : string) : list (ascii + string) := find_all (S (String.length s)) s.

(** utils/pathParams.go:24-30: param[1:] and param[0] == ':' (a match is never empty). *)
Definition param_of_match (m : string) : Param :=
  mkParam (drop 1 m) (field_of_type "string")
          (match m with String c _ => Ascii.eqb c ":" | EmptyString => false end)
          false false false.

(** utils/pathParams.go:17-35 *)
Definition ExtractParamsFromPath (path : string) : list Param :=
  flat_map (fun p => match p with inr m => [param_of_match m] | inl _ => [] end)
           (regex_pieces path).

(** utils/pathParams.go:39-41 *)
Definition MapPathParams (path : string) (repl : string -> string) : string :=
  fold_right (fun p acc => match p with inr m => repl m ++ acc | inl c => String c acc end)
             "" (regex_pieces path).

(** outputs/openapi/generate.go:46-52 *)
Definition openapi_repl (param : string) : string :=
  match param with
  | String c name => if Ascii.eqb c ":" then "{" ++ name ++ "}" else "{" ++ name ++ "*}"
  | EmptyString => "" (* unreachable: a match is never empty *)
  end.
(** outputs/openapi/generate.go:46-54: the path of a route in the document. *)
Definition openapi_path (path : string) : string := MapPathParams path openapi_repl.
