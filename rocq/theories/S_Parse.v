(** Specifications for the handler analysis. *)
From Coq Require Import List String Ascii Bool ZArith Arith.
From Verif Require Import BaseStr M_Types M_Paths M_Tags M_Collect S_Collect M_TypeTrav M_Parse.
Import ListNotations.
Local Open Scope string_scope.

(** ** What a context call documents *)
Inductive event :=
| EReturn (r : ReturnType) | EPath (p : Param) | EQuery (p : Param) | EBody (b : BodyParam)
| EReqHeader (p : Param) | ERespHeader (p : Param).

Definition returns_of (es : list event) := flat_map (fun e => match e with EReturn r => [r] | _ => [] end) es.
Definition paths_of (es : list event) := flat_map (fun e => match e with EPath r => [r] | _ => [] end) es.
Definition queries_of (es : list event) := flat_map (fun e => match e with EQuery r => [r] | _ => [] end) es.
Definition bodies_of (es : list event) := flat_map (fun e => match e with EBody r => [r] | _ => [] end) es.
Definition reqHeaders_of (es : list event) := flat_map (fun e => match e with EReqHeader r => [r] | _ => [] end) es.
Definition respHeaders_of (es : list event) := flat_map (fun e => match e with ERespHeader r => [r] | _ => [] end) es.

(** The route after the events: parameters, bodies and headers appended in order, return types
    accumulated, everything else as before. *)
Definition recorded (es : list event) (r : Route) : Route :=
  mkRoute (rt_handler r) (rt_file r) (rt_line r) (rt_method r) (rt_path r)
    (rt_pathParams r ++ paths_of es) (rt_queryParams r ++ queries_of es) (rt_body r ++ bodies_of es)
    (AddReturnType (rt_returns r) (returns_of es)) (rt_doc r) (rt_operationId r)
    (rt_reqHeaders r ++ reqHeaders_of es) (rt_respHeaders r ++ respHeaders_of es).

(** gin's methods by what they mean. Renderers with a status and a value: *)
Definition renderers : list (string * string) :=
  [("JSON", "application/json"); ("XML", "application/xml"); ("YAML", "application/yaml");
   ("ProtoBuf", "application/protobuf"); ("AbortWithStatusJSON", "application/json")].
(** Methods that only answer a status: the type documented, and the content type. *)
Definition answers : list (string * (string * string)) :=
  [("String", ("string", "text/plain")); ("Status", ("nil", "")); ("AbortWithError", ("nil", ""));
   ("AbortWithStatus", ("nil", ""))].
(** Methods that read one named value. *)
Definition str_param (name : string) (arr map : bool) : Param := mkParam name (field_of_type "string") false arr map false.
Definition form_value (name : string) (arr map : bool) : BodyParam :=
  mkBody name (field_of_type "string") "application/x-www-form-urlencoded" false arr map false.
Definition readers : list (string * (string -> event)) :=
  [("Query", fun n => EQuery (str_param n false false)); ("GetQuery", fun n => EQuery (str_param n false false));
   ("QueryArray", fun n => EQuery (str_param n true false)); ("GetQueryArray", fun n => EQuery (str_param n true false));
   ("QueryMap", fun n => EQuery (str_param n false true)); ("GetQueryMap", fun n => EQuery (str_param n false true));
   ("PostForm", fun n => EBody (form_value n false false)); ("GetPostForm", fun n => EBody (form_value n false false));
   ("PostFormArray", fun n => EBody (form_value n true false)); ("GetPostFormArray", fun n => EBody (form_value n true false));
   ("PostFormMap", fun n => EBody (form_value n false true)); ("GetPostFormMap", fun n => EBody (form_value n false true));
   ("FormFile", fun n => EBody (mkBody n (field_of_type "file") "multipart/form-data" false false false false));
   ("GetHeader", fun n => EReqHeader (str_param n false false));
   ("Header", fun n => ERespHeader (str_param n false false))].
(** Methods that bind a value. *)
Definition bound_to (f : Field) : Param := mkParam "" f false false false true.
Definition body_to (content : string) (f : Field) : BodyParam := mkBody "" f content false false false true.
Definition bind_everything (f : Field) : list event :=
  [EPath (bound_to f); EQuery (bound_to f); EReqHeader (bound_to f);
   EBody (body_to "application/x-www-form-urlencoded" f); EBody (body_to "multipart/form-data" f);
   EBody (body_to "application/json" f); EBody (body_to "application/xml" f);
   EBody (body_to "application/yaml" f)].
Definition binders : list (string * (Field -> list event)) :=
  [("BindQuery", fun f => [EQuery (bound_to f)]); ("ShouldBindQuery", fun f => [EQuery (bound_to f)]);
   ("BindJSON", fun f => [EBody (body_to "application/json" f)]); ("ShouldBindJSON", fun f => [EBody (body_to "application/json" f)]);
   ("BindXML", fun f => [EBody (body_to "application/xml" f)]); ("ShouldBindXML", fun f => [EBody (body_to "application/xml" f)]);
   ("BindYAML", fun f => [EBody (body_to "application/yaml" f)]); ("ShouldBindYAML", fun f => [EBody (body_to "application/yaml" f)]);
   ("BindHeader", fun f => [EReqHeader (bound_to f)]); ("ShouldBindHeader", fun f => [EReqHeader (bound_to f)]);
   ("Bind", bind_everything); ("ShouldBind", bind_everything)].

Definition documented_methods : list string :=
  map fst renderers ++ map fst answers ++ map fst readers ++ map fst binders ++ ["Data"].

(** [gin_call f name args es regs]: the call of the context method with these arguments, in file
    [f], documents [es] and registers [regs]. c.Data is left out: see the theorems. *)
Inductive gin_call (f : file) : string -> list arg -> list event -> list Result -> Prop :=
| gc_render name content a b rest v code regs res :
    In (name, content) renderers ->
    a_value a f = Ok v -> ParseInt v = Some code -> a_result b f = (regs, Ok res) ->
    gin_call f name (a :: b :: rest) [EReturn (mkRet code content (ParseResultToField res))] regs
| gc_answer name typ content a rest v code :
    In (name, (typ, content)) answers -> a_value a f = Ok v -> ParseInt v = Some code ->
    gin_call f name (a :: rest) [EReturn (mkRet code content (field_of_type typ))] []
| gc_read name ev a rest v :
    In (name, ev) readers -> a_value a f = Ok v -> gin_call f name (a :: rest) [ev v] []
| gc_bind name ev a rest regs res :
    In (name, ev) binders -> a_result a f = (regs, Ok res) ->
    gin_call f name (a :: rest) (ev (ParseResultToField res)) regs
| gc_other name args : ~ In name documented_methods -> gin_call f name args [] [].

(** ** What a syntax tree documents *)
Definition the_context : string := "*github.com/gin-gonic/gin.Context".
Definition passes (ctx : string) (c : call) : Prop := exists a, In a (c_args c) /\ a_ident a = Some ctx.
Definition landed (nf : option file) (f : file) : file := match nf with Some f' => f' | None => f end.

(** A call that is not followed or not understood, for reasons other than a context method whose
    arguments cannot be evaluated. The active file stays. *)
Definition not_followed (funcs : funcref -> func) (ctx : string) (f : file) (c : call) : Prop :=
  (passes ctx c /\
   (c_decl c f = DErr \/
    exists nf, landed nf f = f /\
      (c_decl c f = DFound nf None \/ exists g, c_decl c f = DFound nf (Some g) /\ fn_ctx (funcs g) f = Ok ""))) \/
  (~ passes ctx c /\ exists e, c_obj c f = OErr e).

Section Documents.
  Context (funcs : funcref -> func) (strict : bool).

  (** [documents ctx f n es regs last]: walking [n] in file [f], with the context called [ctx],
      meets exactly the context calls with the events [es], in source order, those of helpers the
      context is passed to at the place of the call.  Calls that are not followed contribute
      nothing; if [strict], there is nothing in their arguments to contribute either.  [last] says
      that the walk ended at such a call. *)
  Inductive documents : string -> file -> node -> list event -> list Result -> bool -> Prop :=
  | doc_plain ctx f ch es regs last :
      documents_all ctx f ch es regs last -> documents ctx f (Node None ch) es regs last
  | doc_skip ctx f c ch :
      not_followed funcs ctx f c ->
      (strict = true -> exists last, documents_all ctx f ch [] [] last) ->
      documents ctx f (Node (Some c) ch) [] [] true
  | doc_func ctx f c ch name recv es regs last :
      ~ passes ctx c -> c_obj c f = OFunc name recv -> recv <> Some the_context ->
      documents_all ctx f ch es regs last -> documents ctx f (Node (Some c) ch) es regs last
  | doc_gin ctx f c ch name es1 regs1 es2 regs2 last :
      ~ passes ctx c -> c_obj c f = OFunc name (Some the_context) ->
      gin_call f name (c_args c) es1 regs1 ->
      documents_all ctx f ch es2 regs2 last ->
      documents ctx f (Node (Some c) ch) (es1 ++ es2) (regs1 ++ regs2) last
  | doc_helper ctx f c ch nf g ctx' es1 regs1 es2 regs2 last :
      passes ctx c -> c_decl c f = DFound nf (Some g) ->
      fn_ctx (funcs g) (landed nf f) = Ok ctx' -> ctx' <> "" ->
      documents ctx' (landed nf f) (fn_body (funcs g)) es1 regs1 false ->
      documents_all ctx f ch es2 regs2 last ->
      documents ctx f (Node (Some c) ch) (es1 ++ es2) (regs1 ++ regs2) last
  | doc_helper_cut ctx f c ch nf g ctx' es regs :
      strict = false ->
      passes ctx c -> c_decl c f = DFound nf (Some g) -> landed nf f = f ->
      fn_ctx (funcs g) f = Ok ctx' -> ctx' <> "" ->
      documents ctx' f (fn_body (funcs g)) es regs true ->
      documents ctx f (Node (Some c) ch) es regs true
  with documents_all : string -> file -> list node -> list event -> list Result -> bool -> Prop :=
  | docs_nil ctx f : documents_all ctx f [] [] [] false
  | docs_one ctx f n es regs last :
      documents ctx f n es regs last -> documents_all ctx f [n] es regs last
  | docs_cons ctx f n n' ns es1 regs1 l1 es2 regs2 last :
      documents ctx f n es1 regs1 l1 -> documents_all ctx f (n' :: ns) es2 regs2 last ->
      documents_all ctx f (n :: n' :: ns) (es1 ++ es2) (regs1 ++ regs2) last.
End Documents.

(** ** Occurrence of calls *)
Inductive occurs (c : call) : node -> Prop :=
| oc_here ch : occurs c (Node (Some c) ch)
| oc_in c' ch n : In n ch -> occurs c n -> occurs c (Node c' ch).

(** [calls funcs g g']: the body of [g] has a call passing the context of [g] that resolves, in some
    file, to [g']. *)
Definition calls (funcs : funcref -> func) (g g' : funcref) : Prop :=
  exists c f f' nf ctx, occurs c (fn_body (funcs g)) /\ fn_ctx (funcs g) f = Ok ctx /\ passes ctx c /\
    c_decl c f' = DFound nf (Some g').

(** The argument analyses themselves end (type analysis: C27). *)
Definition args_end (c : call) : Prop :=
  forall a f, In a (c_args c) -> a_value a f <> OutOfFuel /\ snd (a_result a f) <> OutOfFuel.

(** ** Building a context function *)

(** [op_value f args i op regs v]: the operation declared at position [i]. *)
Inductive op_value (f : file) (args : list arg) : nat -> pop -> list Result -> anyval -> Prop :=
| ov_ignored i : op_value f args i PIgnored [] ANil
| ov_status i a v z : nth_error args i = Some a -> a_value a f = Ok v -> ParseInt v = Some z ->
    op_value f args i PStatus [] (AInt z)
| ov_expr i a regs r : nth_error args i = Some a -> a_result a f = (regs, Ok r) ->
    op_value f args i PExpr regs (AResult r)
| ov_value i a v : nth_error args i = Some a -> a_value a f = Ok v -> op_value f args i PValue [] (AStr v).

(** The operation fails with an error. *)
Inductive op_fails (f : file) (args : list arg) : nat -> pop -> list Result -> string -> Prop :=
| of_status i a e : nth_error args i = Some a -> a_value a f = Err e -> op_fails f args i PStatus [] e
| of_atoi i a v : nth_error args i = Some a -> a_value a f = Ok v -> ParseInt v = None ->
    op_fails f args i PStatus [] "strconv"
| of_expr i a regs e : nth_error args i = Some a -> a_result a f = (regs, Err e) ->
    op_fails f args i PExpr regs e
| of_value i a e : nth_error args i = Some a -> a_value a f = Err e -> op_fails f args i PValue [] e.

(** The first operations, one after the other from position [i]. *)
Inductive ops_values (f : file) (args : list arg) : nat -> list pop -> list Result -> list anyval -> Prop :=
| ops_nil i : ops_values f args i [] [] []
| ops_cons i op ops r1 v r2 vs :
    op_value f args i op r1 v -> ops_values f args (S i) ops r2 vs ->
    ops_values f args i (op :: ops) (r1 ++ r2) (v :: vs).

(** ** Growth of a route *)

(** The same route, with nothing it had recorded lost or reordered. *)
Definition same_identity (r r' : Route) : Prop :=
  rt_handler r' = rt_handler r /\ rt_file r' = rt_file r /\ rt_line r' = rt_line r /\
  rt_method r' = rt_method r /\ rt_path r' = rt_path r.
Definition grows {A} (l l' : list A) : Prop := exists t, l' = (l ++ t)%list.
Definition extends (r r' : Route) : Prop :=
  same_identity r r' /\ grows (rt_queryParams r) (rt_queryParams r') /\ grows (rt_body r) (rt_body r') /\
  grows (rt_returns r) (rt_returns r') /\ grows (rt_reqHeaders r) (rt_reqHeaders r') /\
  grows (rt_respHeaders r) (rt_respHeaders r').

(** ** The handler of a route *)

(** The outermost literals starting at a line, in source order. *)
Fixpoint lits_at (line : Z) (f : file) (l : lit) : list funcref :=
  match l with
  | Lit at_ g inner => if Z.eqb line (at_ f) then [g] else flat_map (lits_at line f) inner
  end.

(** [handler_of prog r f g op]: the route's handler name is the run-time name of a function, or of a
    literal in it, whose package (with nothing escaped by the linker) and file are found, where it
    is the only function of that name; [g] is the function, or the only outermost literal at the
    line; [op] is the operation id it gets. *)
Definition handler_of (prog : program) (r : Route) (f : file) (g : funcref) (op : option string) : Prop :=
  exists pkg name more files before fname ds1 d ds2 behind,
    rt_handler r = runtime_name pkg (name :: more) /\ plain_pkg pkg = true /\
    ident_like name /\ Forall ident_like more /\
    pr_package prog pkg = Some files /\
    files = (before ++ (fname, f, ds1 ++ d :: ds2) :: behind)%list /\
    path_Base fname = path_Base (rt_file r) /\
    (forall x, In x before -> path_Base (fst (fst x)) <> path_Base (rt_file r)) /\
    fd_name d = name /\ (forall d', In d' ds1 \/ In d' ds2 -> fd_name d' <> name) /\
    ((fd_line d f = rt_line r /\ g = fd_ref d /\ op = Some (pr_lowerCamel prog name)) \/
     (fd_line d f <> rt_line r /\ flat_map (lits_at (rt_line r) f) (fd_lits d) = [g] /\ op = None)).

(** The analysed route: path parameters of the path, operation id and comment of the handler, and
    the events recorded. *)
Definition with_op (op : option string) (r : Route) : Route :=
  match op with Some i => with_operationId i r | None => r end.
Definition comment_of (doc : string) (r : Route) : Route :=
  if String.eqb (FormatDoc doc) "" then r else with_doc (TrimSpace (FormatDoc doc)) r.
Definition analysed (doc : string) (op : option string) (es : list event) (r : Route) : Route :=
  recorded es (comment_of doc (with_op op (with_pathParams (ExtractParamsFromPath (rt_path r)) r))).
