(** Which requests gin and Azure functions serve under a route, segment by segment. *)
From Coq Require Import List String Ascii Bool ZArith Arith.
From Verif Require Import BaseStr S_Paths.
Import ListNotations.
Local Open Scope string_scope.

Definition letter (c : ascii) : Prop :=
  let n := nat_of_ascii c in (65 <= n /\ n <= 90) \/ (97 <= n /\ n <= 122).
Fixpoint all_letters (v : string) : Prop := match v with EmptyString => True | String c r => letter c /\ all_letters r end.
(** The constraint alpha (routing in ASP.NET Core): one or more letters a to z, in either case. *)
Definition alphabetic (v : string) : Prop := v <> "" /\ all_letters v.

(** [gin_serves segs url vs]: gin's path with these segments serves the path with the segments [url], with the values [vs] of
    its parameters.  A parameter takes one non-empty segment, but for the literal text before it; a catch-all takes all
    that is left, at least the slash before it. *)
Inductive gin_serves : list string -> list string -> list string -> Prop :=
| gs_nil : gin_serves [] [] []
| gs_literal s segs us vs :
    (forall lit m name, ~ seg_has lit m name s) -> gin_serves segs us vs -> gin_serves (s :: segs) (s :: us) vs
| gs_param lit name seg segs v us vs :
    seg_has lit ":" name seg -> v <> "" -> gin_serves segs us vs -> gin_serves (seg :: segs) ((lit ++ v) :: us) (v :: vs)
| gs_rest name seg us : seg_has "" "*" name seg -> us <> [] -> gin_serves [seg] us [join "/" us].

(** A route template of Azure functions: literal text, parameters in braces with a constraint, the last one optional.  alpha is the
    only constraint path parameters get (C01, C46); letters are taken to be compared exactly. *)
Inductive azure_serves : list string -> list string -> Prop :=
| az_nil : azure_serves [] []
| az_literal s ts us : has_char "{" s = false -> azure_serves ts us -> azure_serves (s :: ts) (s :: us)
| az_param lit name v ts us :
    has_char "{" lit = false -> has_char ":" name = false -> alphabetic v -> azure_serves ts us ->
    azure_serves ((lit ++ "{" ++ name ++ ":" ++ "alpha}") :: ts) ((lit ++ v) :: us)
| az_absent name : has_char ":" name = false -> azure_serves ["{" ++ name ++ ":" ++ "alpha?}"] []
| az_optional name v : has_char ":" name = false -> alphabetic v -> azure_serves ["{" ++ name ++ ":" ++ "alpha?}"] [v].
