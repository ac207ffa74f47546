(** What the Azure functions output should be. *)
From Coq Require Import List String Ascii Bool ZArith Arith.
From Verif Require Import BaseStr BaseMap M_Types M_Collect M_OpenAPI M_Parse M_Clean M_FS M_Service P_FS S_Paths.
Import ListNotations.
Local Open Scope string_scope.

(** ** Routes *)

(** The braced form of a path parameter, given with its marker: all path parameters are strings, which Azure calls alpha;
    a question mark tells that it is optional. *)
Definition azure_form (mn : string) : string :=
  match mn with
  | String m name => if Ascii.eqb m ":" then "{" ++ name ++ ":alpha}" else "{" ++ name ++ ":alpha?}"
  | EmptyString => ""
  end.

(** A parameter name that is not the beginning of a constraint. *)
Definition clear_name (n : string) : Prop := forall x, n ++ x <> "alpha?".

(** ** Function folders *)

(** The folder of a route: the part of the handler name after the last dot; should that have slashes, nested. *)
Definition folder (r : Route) : list string :=
  filter (fun e => negb (String.eqb e "")) (split "/" (after_last "." (rt_handler r))).

(** What is below the output directory: itself, each route's folder, and in it the one file. *)
Definition expected (routes : list Route) (q : list string) (k : kind content) : Prop :=
  (q = [] /\ k = KDir) \/
  exists r, In r routes /\
    ((q = folder r /\ k = KDir) \/
     (q = (folder r ++ ["function.json"])%list /\
      k = KFile (CFunction [to_lower (rt_method r); "options"] (convertRoute r)))).
