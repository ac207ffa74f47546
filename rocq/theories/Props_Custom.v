(** Custom functions that answer calls: C79. *)
From Coq Require Import List String Ascii Bool ZArith Arith Lia.
From Verif Require Import BaseStr M_Types M_Paths M_Tags M_Collect S_Collect M_TypeTrav M_Parse S_Parse P_Parse P_Parse2 P_Parse4 S_Custom P_Custom Props_Parse.
Import ListNotations.
Local Open Scope string_scope.

(** C79, for custom functions that change the route they are given: the route recorded is the one before the handler's calls,
    changed by each call in source order: a call a custom function takes by that function alone, the others as ever, helpers at
    the place of their call.  Missing: functions that answer by a route of their own (refuted below). *)
Theorem C79_taken_partial :
  forall prog r f g op ctx l regs last,
    handler_of prog r f g op -> fn_ctx (pr_funcs prog g) f = Ok ctx -> ctx <> "" ->
    told (pr_funcs prog) (pr_customs prog) ctx f (fn_body (pr_funcs prog g)) l regs last ->
    exists N, forall fuel, N <= fuel -> forall comps,
    parseRoute fuel prog r comps = Ok (applied l (prepared (fn_doc (pr_funcs prog g)) op r), register comps regs).
Proof. exact parseRoute_told. Qed.
Print Assumptions C79_taken_partial.

(** handleError(c, 500, err), known to a custom function, which records a text answer. *)
Definition error_call (code : string) : call :=
  mkCall [ctx_arg; lit_arg code; computed_arg] (fun _ => DErr) (fun _ => OFunc "handleError" None).
Definition is_error (c : call) : bool := match c_obj c 0 with OFunc "handleError" None => true | _ => false end.
Definition text_answer (c : call) (f : file) (r : Route) : Route :=
  match nth_error (c_args c) 1 with
  | Some a => match a_value a f with
              | Ok v => match ParseInt v with Some z => add_return (mkRet z "text/plain" (field_of_type "string")) r | None => r end
              | _ => r
              end
  | None => r
  end.
Definition knows_errors : customFunc := fun _ c f r =>
  if is_error c then match r with Some r => CuSame (text_answer c f r) | None => CuErr end else CuNone [].
Definition failing : list func :=
  [gfunc "" [does (gin "Query" [lit_arg "page"]); does (error_call "500"); does (gin "JSON" [lit_arg "200"; item_arg])]].

Example C79_nontrivial :
  exists l regs r comps,
    told (pr_funcs (with_customs [knows_errors] (prog_of failing [handle]))) [knows_errors] "c" 0 (fn_body (nth 0 failing (gfunc "" []))) l regs false /\
    parseRoute 5 (with_customs [knows_errors] (prog_of failing [handle])) items [] = Ok (r, comps) /\
    map r_status (rt_returns r) = [500%Z; 200%Z] /\ map r_contentType (rt_returns r) = ["text/plain"; "application/json"] /\ map p_name (rt_queryParams r) = ["page"].
Proof.
  assert (Leaf : forall f, told_all (pr_funcs (with_customs [knows_errors] (prog_of failing [handle]))) [knows_errors] "c" f [leaf] [] [] false).
  { intros f. apply tos_one, to_plain, tos_nil. }
  eexists _, _, _, _. split; [|split; [vm_compute; reflexivity|repeat split; vm_compute; reflexivity]].
  apply to_plain.
  eapply tos_cons.
  { eapply (to_gin _ _ "c" 0 _ _ "Query"); [apply aw_declines; [reflexivity|constructor]|now apply not_passing|reflexivity| |apply Leaf].
    eapply (gc_read 0 "Query" (fun n => EQuery (str_param n false false))); [now left|reflexivity]. }
  eapply tos_cons.
  { eapply to_taken; [|apply Leaf]. apply aw_takes with (ch := text_answer (error_call "500") 0). reflexivity. }
  apply tos_one. eapply (to_gin _ _ "c" 0 _ _ "JSON"); [apply aw_declines; [reflexivity|constructor]|now apply not_passing|reflexivity| |apply Leaf].
  eapply (gc_render 0 "JSON" "application/json"); [now left|reflexivity|reflexivity|reflexivity].
Qed.

(** C79, refuted: a custom function that answers by a route of its own.  Whatever follows the call, its arguments and the
    answer itself are lost: the route recorded is that of the calls before. *)
Theorem C79_fresh_lost :
  forall prog r f g op ctx pre c ch post l regs last,
    handler_of prog r f g (Some op) ->
    fn_body (pr_funcs prog g) = Node None (pre ++ Node (Some c) ch :: post) ->
    told_all (pr_funcs prog) (pr_customs prog) ctx f pre l regs last ->
    answers_afresh (pr_customs prog) ctx c f ->
    fn_ctx (pr_funcs prog g) f = Ok ctx -> ctx <> "" ->
    exists N, forall fuel, N <= fuel -> forall comps r' comps', parseRoute fuel prog r comps = Ok (r', comps') ->
    r' = applied l (prepared (fn_doc (pr_funcs prog g)) (Some op) r).
Proof. exact parseRoute_afresh. Qed.
Print Assumptions C79_fresh_lost.

(** The same custom function on a copy of the route: neither its answer nor the handler's is documented. *)
Definition copies_errors : customFunc := fun _ c f r =>
  if is_error c then CuFresh (text_answer c f (match r with Some r => r | None => items end)) else CuNone [].
Theorem C79_refuted :
  exists prog r r' comps' c,
    answers_afresh (pr_customs prog) "c" c 0 /\ occurs c (fn_body (pr_funcs prog 0)) /\
    (forall rt, exists answer, copies_errors "c" c 0 (Some rt) = CuFresh answer /\ rt_returns answer = AddReturnType (rt_returns rt) [mkRet 500 "text/plain" (field_of_type "string")]) /\
    (forall fuel, 3 <= fuel -> parseRoute fuel prog r [] = Ok (r', comps')) /\
    map p_name (rt_queryParams r') = ["page"] /\ rt_returns r' = [].
Proof.
  exists (with_customs [copies_errors] (prog_of failing [handle])), items. eexists _, _, (error_call "500").
  split. { exists [], copies_errors, []. split; [reflexivity|]. split; [intros d r []|]. intros r. eexists. reflexivity. }
  split. { eapply oc_in; [right; left; reflexivity|constructor]. }
  split. { intros rt. eexists. split; [reflexivity|]. reflexivity. }
  split. { intros fuel H. destruct fuel as [|[|[|fuel]]]; try lia. vm_compute. reflexivity. }
  split; reflexivity.
Qed.
Print Assumptions C79_refuted.
