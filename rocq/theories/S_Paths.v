(** Specification of path parameters, independent of the scanner: a path is read segment by
    segment; within a segment everything after the first marker is a parameter name. *)
From Coq Require Import List String Ascii Bool.
From Verif Require Import BaseStr M_Types.
Import ListNotations.
Local Open Scope string_scope.

(** ':' and '*' introduce a parameter. *)
Definition marker (c : ascii) : Prop := c = ":"%char \/ c = "*"%char.

(** [seg_has lit m name seg]: the segment [seg] is literal text [lit] without markers, then the
    marker [m], then the non-empty parameter name [name]. *)
Definition seg_has (lit : string) (m : ascii) (name seg : string) : Prop :=
  seg = lit ++ String m name /\ marker m /\ name <> "" /\
  has_char ":" lit = false /\ has_char "*" lit = false.

(** The (marker, name) parameters of a list of segments, in order. *)
Inductive seg_params : list string -> list (ascii * string) -> Prop :=
| sp_nil : seg_params [] []
| sp_param lit m name seg segs ps :
    seg_has lit m name seg -> seg_params segs ps -> seg_params (seg :: segs) ((m, name) :: ps)
| sp_plain seg segs ps :
    (forall lit m name, ~ seg_has lit m name seg) -> seg_params segs ps ->
    seg_params (seg :: segs) ps.

(** The path with the parameter piece of each segment replaced by [f]. *)
Inductive seg_mapped (f : string -> string) : list string -> list string -> Prop :=
| sm_nil : seg_mapped f [] []
| sm_param lit m name seg segs segs' :
    seg_has lit m name seg -> seg_mapped f segs segs' ->
    seg_mapped f (seg :: segs) ((lit ++ f (String m name)) :: segs')
| sm_plain seg segs segs' :
    (forall lit m name, ~ seg_has lit m name seg) -> seg_mapped f segs segs' ->
    seg_mapped f (seg :: segs) (seg :: segs').

(** A segment gin accepts (gin panics on a second marker in one segment), without the braces
    of OpenAPI templates. *)
Fixpoint count_markers (s : string) : nat :=
  match s with
  | EmptyString => 0
  | String c r => (if Ascii.eqb c ":" || Ascii.eqb c "*" then 1 else 0) + count_markers r
  end.
Definition gin_segment (s : string) : Prop :=
  count_markers s <= 1 /\ has_char "{" s = false /\ has_char "}" s = false.
Definition gin_path (p : string) : Prop := Forall gin_segment (split "/" p).

(** The template expressions {x} of an OpenAPI path, left to right: the text between each
    opening brace and the next closing one. *)
Fixpoint templates_from (cur : option string) (s : string) : list string :=
  match s with
  | EmptyString => []
  | String c r =>
      match cur with
      | None => if Ascii.eqb c "{" then templates_from (Some "") r else templates_from None r
      | Some acc => if Ascii.eqb c "}" then acc :: templates_from None r
                    else templates_from (Some (acc ++ str1 c)) r
      end
  end.
Definition templates := templates_from None.

(** The parameter described by (marker, name): a plain string parameter, required for ':'. *)
Definition spec_param (mn : ascii * string) : Param :=
  mkParam (snd mn) (field_of_type "string") (Ascii.eqb (fst mn) ":") false false false.

(** What is written between the braces for a parameter. *)
Definition template_of (mn : ascii * string) : string :=
  if Ascii.eqb (fst mn) ":" then snd mn else snd mn ++ "*".

(** OpenAPI's rule: the template expressions of a path are the names of its path parameters
    (in the same order), and path parameters are required. *)
Definition templates_declared (tpath : string) (params : list Param) : Prop :=
  templates tpath = map p_name params /\ Forall (fun q => p_isRequired q = true) params.
