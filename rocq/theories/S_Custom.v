(** What custom functions promise (contextFuncBuilder.go:81-87; inputs/gin/parseFunction.go:67-70: a route a custom function
    returns is used instead of the current one, and the call is done with). *)
From Coq Require Import List String Ascii Bool ZArith Arith.
From Verif Require Import BaseStr M_Types M_Paths M_Collect M_TypeTrav M_Parse S_Parse.
Import ListNotations.
Local Open Scope string_scope.

(** [answered cs ctx c f o]: of the custom functions, asked in turn, the first that does not decline changes the route it is
    given in place, by [o]; if there is none, [o] is None.  Functions decline without declaring parameters (see C56). *)
Inductive answered : list customFunc -> string -> call -> file -> option (Route -> Route) -> Prop :=
| aw_none ctx c f : answered [] ctx c f None
| aw_takes cu rest ctx c f ch : (forall r, cu ctx c f (Some r) = CuSame (ch r)) -> answered (cu :: rest) ctx c f (Some ch)
| aw_declines cu rest ctx c f o : (forall r, cu ctx c f (Some r) = CuNone []) -> answered rest ctx c f o -> answered (cu :: rest) ctx c f o.

(** The changes to a route, one after the other. *)
Definition applied (l : list (Route -> Route)) (r : Route) : Route := fold_left (fun r ch => ch r) l r.

Section Told.
  Context (funcs : funcref -> func) (cs : list customFunc).
  (** [told ctx f n l regs last]: what a tree tells, in source order: a call a custom function takes is told by that function
      alone, every other one as without custom functions; in both cases the arguments come after the call. *)
  Inductive told : string -> file -> node -> list (Route -> Route) -> list Result -> bool -> Prop :=
  | to_plain ctx f ch l regs last : told_all ctx f ch l regs last -> told ctx f (Node None ch) l regs last
  | to_taken ctx f c ch d l regs last :
      answered cs ctx c f (Some d) -> told_all ctx f ch l regs last -> told ctx f (Node (Some c) ch) (d :: l) regs last
  | to_skip ctx f c ch :
      answered cs ctx c f None -> not_followed funcs ctx f c -> told ctx f (Node (Some c) ch) [] [] true
  | to_func ctx f c ch name recv l regs last :
      answered cs ctx c f None -> ~ passes ctx c -> c_obj c f = OFunc name recv -> recv <> Some the_context ->
      told_all ctx f ch l regs last -> told ctx f (Node (Some c) ch) l regs last
  | to_gin ctx f c ch name es regs1 l regs2 last :
      answered cs ctx c f None -> ~ passes ctx c -> c_obj c f = OFunc name (Some the_context) ->
      gin_call f name (c_args c) es regs1 -> told_all ctx f ch l regs2 last ->
      told ctx f (Node (Some c) ch) (recorded es :: l) (regs1 ++ regs2) last
  | to_helper ctx f c ch nf g ctx' l1 regs1 l2 regs2 last :
      answered cs ctx c f None -> passes ctx c -> c_decl c f = DFound nf (Some g) ->
      fn_ctx (funcs g) (landed nf f) = Ok ctx' -> ctx' <> "" ->
      told ctx' (landed nf f) (fn_body (funcs g)) l1 regs1 false -> told_all ctx f ch l2 regs2 last ->
      told ctx f (Node (Some c) ch) (l1 ++ l2) (regs1 ++ regs2) last
  with told_all : string -> file -> list node -> list (Route -> Route) -> list Result -> bool -> Prop :=
  | tos_nil ctx f : told_all ctx f [] [] [] false
  | tos_one ctx f n l regs last : told ctx f n l regs last -> told_all ctx f [n] l regs last
  | tos_cons ctx f n n' ns l1 regs1 b1 l2 regs2 last :
      told ctx f n l1 regs1 b1 -> told_all ctx f (n' :: ns) l2 regs2 last ->
      told_all ctx f (n :: n' :: ns) (l1 ++ l2) (regs1 ++ regs2) last.
End Told.

(** The route before the handler's calls are looked at. *)
Definition prepared (doc : string) (op : option string) (r : Route) : Route :=
  comment_of doc (with_op op (with_pathParams (ExtractParamsFromPath (rt_path r)) r)).

(** A custom function that answers a call by a route of its own making. *)
Definition answers_afresh (cs : list customFunc) (ctx : string) (c : call) (f : file) : Prop :=
  exists before cu behind, cs = (before ++ cu :: behind)%list /\
    (forall d r, In d before -> d ctx c f r = CuNone []) /\ forall r, exists r', cu ctx c f r = CuFresh r'.

(** Custom functions that leave alone what tells routes apart and where their handlers are. *)
Definition polite (cu : customFunc) : Prop :=
  forall ctx c f r r', cu ctx c f (Some r) = CuSame r' -> same_identity r r'.

(** What the analyses make of a route: [n] times the changes told, each after the path parameters, the operation id and the
    comment have been set. *)
Fixpoint made (n : nat) (doc : string) (id : option string) (l : list (Route -> Route)) (r : Route) : Route :=
  match n with O => r | S n => made n doc id l (applied l (prepared doc id r)) end.
