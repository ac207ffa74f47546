(** Handler analysis: contextFuncBuilder.go, inputs/gin/parseFunction.go, inputs/gin/parseRoute.go,
    inputs/gin/parseRoutes.go, parseRoutes.go. *)
From Coq Require Import List String Ascii Bool ZArith Arith.
From Verif Require Import BaseStr M_Types M_Paths M_Tags M_Collect M_TypeTrav.
Import ListNotations.
Local Open Scope string_scope.

(** ** Syntax

    A source file is a number.  The answers of go/packages and go/types are part of the syntax tree:
    what an argument evaluates to, what a called expression is declared as, what object it denotes.
    They depend on the traverser's active file, as in the code. *)
Definition file := nat.
(** A function that can be analysed (FuncDecl or FuncLit): a key into the program. *)
Definition funcref := nat.

(** An argument expression: its name if it is an identifier (callExpression.go:43), what
    Expression(arg).Value() answers, and what Expression(arg).Type() followed by Type(..).Result()
    answers, with the registrations made. *)
Record arg := mkArg {
  a_ident : option string; a_value : file -> outcome string; a_result : file -> writer Result }.

(** FindDeclarationForNode and Function (callExpression.go:27-39, traverser.go:84-135): an error, or
    a declaration that is a function or not, found after setting the active file or not. *)
Inductive declres := DErr | DFound (newfile : option file) (f : option funcref).
(** CallExpressionTraverser.Type (callExpression.go:60-87): a function or method with its name and
    the printed type of its receiver, or an error (unknown object, builtin, conversion, function
    value or literal). *)
Inductive objres := OErr (e : string) | OFunc (name : string) (recv : option string).

(** A call expression: its arguments, the declaration and the object of what it calls, in each active file. *)
Record call := mkCall { c_args : list arg; c_decl : file -> declres; c_obj : file -> objres }.

(** A node of the tree ast.Inspect walks over: a call or not, and its children. *)
Inductive node := Node (c : option call) (children : list node).

(** A function: its comment (nil or empty for a literal), the name FindArgumentNameByType
    (function.go:53-76) finds for the gin context in a file (empty if none, a panic if the parameter
    is unnamed), and its body. *)
Record func := mkFunc { fn_doc : string; fn_ctx : file -> outcome string; fn_body : node }.

(** ** contextFuncBuilder.go *)

(** The declared parameter operations (contextFuncBuilder.go:24-65). *)
Inductive pop := PIgnored | PStatus | PExpr | PValue.
(** The values handed to the mapper: []any. *)
Inductive anyval := ANil | AInt (z : Z) | AResult (r : Result) | AStr (s : string).

(** One operation: the closures at contextFuncBuilder.go:25-28, 35-37, 44-51, 58-62; Args[i] panics
    out of range.  The second with ExtractStatusCode (astTraversal/extractStatusCode.go:9-28); strconv.Atoi is [ParseInt]. *)
Definition eval_op (f : file) (args : list arg) (i : nat) (op : pop) : writer anyval :=
  match op with
  | PIgnored => wret (Ok ANil)
  | PStatus =>
      match nth_error args i with
      | None => wret Panic
      | Some a => wret (v <- a_value a f ;;
                        match ParseInt v with Some z => Ok (AInt z) | None => Err "strconv" end)
      end
  | PExpr =>
      match nth_error args i with
      | None => wret Panic
      | Some a => r <~ a_result a f ;; wret (Ok (AResult r))
      end
  | PValue =>
      match nth_error args i with
      | None => wret Panic
      | Some a => wret (v <- a_value a f ;; Ok (AStr v))
      end
  end.

(** contextFuncBuilder.go:68-76: the loop; [i] is the index the operation was declared at
    (getCurrentParamIndex, lines 20-22), which is its position. *)
Fixpoint eval_ops (f : file) (args : list arg) (i : nat) (ops : list pop) : writer (list anyval) :=
  match ops with
  | [] => wret (Ok [])
  | op :: rest =>
      v <~ eval_op f args i op ;;
      vs <~ eval_ops f args (S i) rest ;;
      wret (Ok (v :: vs))
  end.

(** ** Changes to a route *)
Definition add_return (n : ReturnType) (r : Route) : Route :=
  mkRoute (rt_handler r) (rt_file r) (rt_line r) (rt_method r) (rt_path r) (rt_pathParams r)
    (rt_queryParams r) (rt_body r) (AddReturnType (rt_returns r) [n]) (rt_doc r) (rt_operationId r)
    (rt_reqHeaders r) (rt_respHeaders r).
(** inputs/gin/parseFunction.go:385: append to PathParams. *)
Definition add_path (p : Param) (r : Route) : Route :=
  mkRoute (rt_handler r) (rt_file r) (rt_line r) (rt_method r) (rt_path r) (rt_pathParams r ++ [p])
    (rt_queryParams r) (rt_body r) (rt_returns r) (rt_doc r) (rt_operationId r)
    (rt_reqHeaders r) (rt_respHeaders r).
(** inputs/gin/parseFunction.go:304, 326, 348, 364, 390: append to QueryParams. *)
Definition add_query (p : Param) (r : Route) : Route :=
  mkRoute (rt_handler r) (rt_file r) (rt_line r) (rt_method r) (rt_path r) (rt_pathParams r)
    (rt_queryParams r ++ [p]) (rt_body r) (rt_returns r) (rt_doc r) (rt_operationId r)
    (rt_reqHeaders r) (rt_respHeaders r).
(** inputs/gin/parseFunction.go:404, 426, 446, 466, 492, 515, 538, 560: append to Body. *)
Definition add_body (b : BodyParam) (r : Route) : Route :=
  mkRoute (rt_handler r) (rt_file r) (rt_line r) (rt_method r) (rt_path r) (rt_pathParams r)
    (rt_queryParams r) (rt_body r ++ [b]) (rt_returns r) (rt_doc r) (rt_operationId r)
    (rt_reqHeaders r) (rt_respHeaders r).
(** inputs/gin/parseFunction.go:395, 581, 597: append to RequestHeaders. *)
Definition add_reqHeader (p : Param) (r : Route) : Route :=
  mkRoute (rt_handler r) (rt_file r) (rt_line r) (rt_method r) (rt_path r) (rt_pathParams r)
    (rt_queryParams r) (rt_body r) (rt_returns r) (rt_doc r) (rt_operationId r)
    (rt_reqHeaders r ++ [p]) (rt_respHeaders r).
(** inputs/gin/parseFunction.go:621: append to ResponseHeaders. *)
Definition add_respHeader (p : Param) (r : Route) : Route :=
  mkRoute (rt_handler r) (rt_file r) (rt_line r) (rt_method r) (rt_path r) (rt_pathParams r)
    (rt_queryParams r) (rt_body r) (rt_returns r) (rt_doc r) (rt_operationId r)
    (rt_reqHeaders r) (rt_respHeaders r ++ [p]).
(** inputs/gin/parseFunction.go:40: Doc assigned. *)
Definition with_doc (d : string) (r : Route) : Route :=
  mkRoute (rt_handler r) (rt_file r) (rt_line r) (rt_method r) (rt_path r) (rt_pathParams r)
    (rt_queryParams r) (rt_body r) (rt_returns r) d (rt_operationId r)
    (rt_reqHeaders r) (rt_respHeaders r).
(** inputs/gin/parseRoute.go:140: OperationID assigned. *)
Definition with_operationId (i : string) (r : Route) : Route :=
  mkRoute (rt_handler r) (rt_file r) (rt_line r) (rt_method r) (rt_path r) (rt_pathParams r)
    (rt_queryParams r) (rt_body r) (rt_returns r) (rt_doc r) i
    (rt_reqHeaders r) (rt_respHeaders r).
(** inputs/gin/parseRoute.go:72: PathParams assigned. *)
Definition with_pathParams (ps : list Param) (r : Route) : Route :=
  mkRoute (rt_handler r) (rt_file r) (rt_line r) (rt_method r) (rt_path r) ps
    (rt_queryParams r) (rt_body r) (rt_returns r) (rt_doc r) (rt_operationId r)
    (rt_reqHeaders r) (rt_respHeaders r).

(** ** The context methods (parseFunction.go:124-694) *)

(** A mapper reads the values and answers how it changes the route, or an error.  The values it
    reads exist: each case declares as many operations. *)
Definition mapper := list anyval -> option (Route -> Route).

(** The mappers of JSON, XML, YAML, ProtoBuf and AbortWithStatusJSON (parseFunction.go:125-224, 667-694). *)
Definition status_result (content : string) : mapper := fun params =>
  match nth_error params 0, nth_error params 1 with
  | Some (AInt s), Some (AResult r) => Some (add_return (mkRet s content (ParseResultToField r)))
  | _, _ => None
  end.
(** The mappers of String, Status, AbortWithError and AbortWithStatus (parseFunction.go:249-289, 625-666). *)
Definition status_only (content typ : string) : mapper := fun params =>
  match nth_error params 0 with
  | Some (AInt s) => Some (add_return (mkRet s content (field_of_type typ)))
  | _ => None
  end.
(** The mappers that read a name (parseFunction.go:290-354, 477-587, 607-624). *)
Definition named (f : string -> Route -> Route) : mapper := fun params =>
  match nth_error params 0 with Some (AStr name) => Some (f name) | _ => None end.
(** The mappers that bind a value (parseFunction.go:355-476, 588-606). *)
Definition bound (f : Field -> Route -> Route) : mapper := fun params =>
  match nth_error params 0 with Some (AResult r) => Some (f (ParseResultToField r)) | _ => None end.

(** astra.Param{Field: Field{Type: string}, Name: name, ...} *)
Definition string_param (name : string) (isArray isMap : bool) : Param :=
  mkParam name (field_of_type "string") false isArray isMap false.
(** astra.Param{IsBound: true, Field: field} *)
Definition bound_param (f : Field) : Param := mkParam "" f false false false true.
(** astra.BodyParam{ContentType, Field: Field{Type: typ}, Name: name, ...} (parseFunction.go:477-566). *)
Definition form_param (content typ name : string) (isArray isMap : bool) : BodyParam :=
  mkBody name (field_of_type typ) content false isArray isMap false.
(** astra.BodyParam{ContentType, IsBound: true, Field: field} (parseFunction.go:404, 426, 446, 466). *)
Definition bound_body (content : string) (f : Field) : BodyParam := mkBody "" f content false false false true.

(** parseFunction.go:376-413 *)
Definition bind_all (f : Field) (r : Route) : Route :=
  let r := add_reqHeader (bound_param f) (add_query (bound_param f) (add_path (bound_param f) r)) in
  fold_left (fun r t => fold_left (fun r c => add_body (bound_body c f) r) (BindingTagToContentTypes t) r)
            [FormBindingTag; JSONBindingTag; XMLBindingTag; YAMLBindingTag] r.

(** parseFunction.go:124-694: for a method name, the declared operations, the mapper, and whether
    an error makes the callback return false (all but Status and Header). Other names do nothing. *)
Definition method (name : string) : option (list pop * mapper * bool) :=
  if str_in name ["JSON"] then Some ([PStatus; PExpr], status_result "application/json", true)
  else if str_in name ["XML"] then Some ([PStatus; PExpr], status_result "application/xml", true)
  else if str_in name ["YAML"] then Some ([PStatus; PExpr], status_result "application/yaml", true)
  else if str_in name ["ProtoBuf"] then Some ([PStatus; PExpr], status_result "application/protobuf", true)
  else if str_in name ["Data"] then Some ([PStatus; PIgnored; PExpr], status_result "", true)
  else if str_in name ["String"] then Some ([PStatus; PIgnored], status_only "text/plain" "string", true)
  else if str_in name ["Status"] then Some ([PStatus], status_only "" "nil", false)
  else if str_in name ["GetQuery"; "Query"] then
    Some ([PValue], named (fun n => add_query (string_param n false false)), true)
  else if str_in name ["GetQueryArray"; "QueryArray"] then
    Some ([PValue], named (fun n => add_query (string_param n true false)), true)
  else if str_in name ["GetQueryMap"; "QueryMap"] then
    Some ([PValue], named (fun n => add_query (string_param n false true)), true)
  else if str_in name ["ShouldBindQuery"; "BindQuery"] then
    Some ([PExpr], bound (fun f => add_query (bound_param f)), true)
  else if str_in name ["ShouldBind"; "Bind"] then Some ([PExpr], bound bind_all, true)
  else if str_in name ["ShouldBindJSON"; "BindJSON"] then
    Some ([PExpr], bound (fun f => add_body (bound_body "application/json" f)), true)
  else if str_in name ["ShouldBindXML"; "BindXML"] then
    Some ([PExpr], bound (fun f => add_body (bound_body "application/xml" f)), true)
  else if str_in name ["ShouldBindYAML"; "BindYAML"] then
    Some ([PExpr], bound (fun f => add_body (bound_body "application/yaml" f)), true)
  else if str_in name ["GetPostForm"; "PostForm"] then
    Some ([PValue], named (fun n => add_body (form_param "application/x-www-form-urlencoded" "string" n false false)), true)
  else if str_in name ["GetPostFormArray"; "PostFormArray"] then
    Some ([PValue], named (fun n => add_body (form_param "application/x-www-form-urlencoded" "string" n true false)), true)
  else if str_in name ["GetPostFormMap"; "PostFormMap"] then
    Some ([PValue], named (fun n => add_body (form_param "application/x-www-form-urlencoded" "string" n false true)), true)
  else if str_in name ["FormFile"] then
    Some ([PValue], named (fun n => add_body (form_param "multipart/form-data" "file" n false false)), true)
  else if str_in name ["GetHeader"] then
    Some ([PValue], named (fun n => add_reqHeader (string_param n false false)), true)
  else if str_in name ["ShouldBindHeader"; "BindHeader"] then
    Some ([PExpr], bound (fun f => add_reqHeader (bound_param f)), true)
  else if str_in name ["Header"] then
    Some ([PValue], named (fun n => add_respHeader (string_param n false false)), false)
  else if str_in name ["AbortWithError"] then Some ([PStatus; PIgnored], status_only "" "nil", true)
  else if str_in name ["AbortWithStatus"] then Some ([PStatus], status_only "" "nil", true)
  else if str_in name ["AbortWithStatusJSON"] then
    Some ([PStatus; PExpr], status_result "application/json", true)
  else None.

(** parseFunction.go:13-20, 118-121 *)
Definition ginContext : string := "*github.com/gin-gonic/gin.Context".

(** ** State *)

(** What outlives a call: the traverser's active file (SetActiveFile and FindDeclarationForNode set
    it), the routes pointers point to, and the service's components. *)
Record pstate := mkPS { ps_file : file; ps_heap : list Route; ps_comps : list Field }.
(** SetActiveFile. *)
Definition set_file (f : file) (s : pstate) : pstate := mkPS f (ps_heap s) (ps_comps s).
(** The results handed to addComponent (parseFunction.go:710-719). *)
Definition add_comps (l : list Result) (s : pstate) : pstate :=
  mkPS (ps_file s) (ps_heap s) (register (ps_comps s) l).
(** An element replaced. *)
Fixpoint set_nth {A} (n : nat) (x : A) (l : list A) : list A :=
  match l, n with
  | [], _ => []
  | _ :: r, O => x :: r
  | y :: r, S n => y :: set_nth n x r
  end.
(** Assignment through a route pointer. *)
Definition store (p : nat) (r : Route) (s : pstate) : pstate :=
  mkPS (ps_file s) (set_nth p r (ps_heap s)) (ps_comps s).
(** A new route pointer: the next one. *)
Definition alloc (r : Route) (s : pstate) : pstate :=
  mkPS (ps_file s) (ps_heap s ++ [r]) (ps_comps s).

(** A custom function (contextFuncBuilder.go:81), given the context's name, the call, the active
    file and the current route: nothing, possibly leaving operations in the shared builder; an
    error; the route it was given, changed in place; or another route.  A custom function that
    returns no route is taken not to change the route. *)
Inductive custres := CuNone (leftover : list pop) | CuErr | CuSame (r : Route) | CuFresh (r : Route).
(** contextFuncBuilder.go:81. *)
Definition customFunc := string -> call -> file -> option Route -> custres.

(** The variables of one run of parseFunction: currRoute (nil is None) and err. *)
Record locals := mkL { l_cur : option nat; l_err : option string }.

(** The route currRoute points to. *)
Definition deref (cur : option nat) (s : pstate) : option Route :=
  match cur with Some p => nth_error (ps_heap s) p | None => None end.

(** parseFunction.go:71-87: the loop over custom functions, [ops] being the builder's operations. *)
Inductive cures := CuStop (* return false *) | CuTaken (cur : nat) (s : pstate) | CuPass (ops : list pop).
Fixpoint customs (cs : list customFunc) (ctx : string) (c : call) (cur : option nat) (ops : list pop)
  (s : pstate) : cures :=
  match cs with
  | [] => CuPass ops
  | f :: rest =>
      match f ctx c (ps_file s) (deref cur s) with
      | CuErr => CuStop
      | CuNone lo => customs rest ctx c cur (ops ++ lo)%list s
      | CuSame r => match cur with
                    | Some p => CuTaken p (store p r s)
                    | None => CuTaken (List.length (ps_heap s)) (alloc r s)
                    end
      | CuFresh r => CuTaken (List.length (ps_heap s)) (alloc r s)
      end
  end.

(** callExpression.go:41-54, whether some argument is the identifier. *)
Definition ArgIndex (name : string) (c : call) : bool :=
  existsb (fun a => match a_ident a with Some i => String.eqb i name | None => false end) (c_args c).

(** contextFuncBuilder.go:67-79 with one of the mappers, in the branch for context methods: the new
    currRoute and err.  The mapper dereferences the route after its checks. *)
Definition build (c : call) (ops : list pop) (m : mapper) (cur : option nat) (s : pstate)
  : outcome (pstate * locals) :=
  let w := eval_ops (ps_file s) (c_args c) 0 ops in
  let s := add_comps (fst w) s in
  match snd w with
  | Err e => Ok (s, mkL None (Some e))
  | Panic => Panic
  | OutOfFuel => OutOfFuel
  | Ok vals =>
      match m vals with
      | None => Ok (s, mkL None (Some "failed to parse"))
      | Some change =>
          match cur with
          | None => Panic
          | Some p =>
              match nth_error (ps_heap s) p with
              | None => Panic
              | Some r => Ok (store p (change r) s, mkL cur None)
              end
          end
      end
  end.

(** parseFunction.go:65-696 on a call: state, locals, and whether to descend. [again] is the
    recursive parseFunction at a deeper level; [here] is this run's activeFile. *)
Definition visit (again : funcref -> option nat -> file -> pstate -> outcome (pstate * option string))
  (cs : list customFunc) (ctx : string) (here : file) (c : call) (s : pstate) (l : locals)
  : outcome (pstate * locals * bool) :=
  let cur := l_cur l in
  match customs cs ctx c cur [] s with
  | CuStop => Ok (s, mkL cur (Some "custom"), false)
  | CuTaken p s => Ok (s, mkL (Some p) None, true)
  | CuPass ops =>
      if ArgIndex ctx c then
        match c_decl c (ps_file s) with
        | DErr => Ok (s, mkL cur (Some "declaration"), false)
        | DFound nf fr =>
            let s := match nf with Some f => set_file f s | None => s end in
            match fr with
            | None => Ok (s, mkL cur (Some "invalid node type"), false)
            | Some g =>
                x <- again g cur (ps_file s) s ;;
                match snd x with
                | Some e => Ok (fst x, mkL cur (Some e), false)
                | None => Ok (set_file here (fst x), mkL cur None, true)
                end
            end
        end
      else
        match c_obj c (ps_file s) with
        | OErr e => Ok (s, mkL cur (Some e), false)
        | OFunc name recv =>
            match recv with
            | Some rt =>
                if String.eqb rt ginContext then
                  match method name with
                  | None => Ok (s, mkL cur None, true)
                  | Some (mops, m, stops) =>
                      x <- build c (ops ++ mops)%list m cur s ;;
                      Ok (fst x, snd x, match l_err (snd x) with Some _ => negb stops | None => true end)
                  end
                else Ok (s, mkL cur None, true)
            | None => Ok (s, mkL cur None, true)
            end
        end
  end.

(** ast.Inspect: preorder; the children of a node are walked iff the callback returns true.  On a
    node that is no call the callback resets err and descends (parseFunction.go:51-64). *)
Fixpoint inspect (v : call -> pstate -> locals -> outcome (pstate * locals * bool))
  (n : node) (s : pstate) (l : locals) : outcome (pstate * locals) :=
  match n with
  | Node c children =>
      x <- match c with
           | None => Ok (s, mkL (l_cur l) None, true)
           | Some c => v c s l
           end ;;
      if snd x
      then (fix walk (ns : list node) (s : pstate) (l : locals) : outcome (pstate * locals) :=
              match ns with
              | [] => Ok (s, l)
              | n :: rest => y <- inspect v n s l ;; walk rest (fst y) (snd y)
              end) children (fst (fst x)) (snd (fst x))
      else Ok (fst x)
  end.

(** parseFunction.go:28-708: the state afterwards and the returned error.  The fuel bounds the
    depth of helpers. *)
Fixpoint parseFunction (fuel : nat) (funcs : funcref -> func) (cs : list customFunc)
  (g : funcref) (cur : option nat) (activeFile : file) (level : nat) (s : pstate)
  : outcome (pstate * option string) :=
  match fuel with
  | O => OutOfFuel
  | S n =>
      let s := set_file activeFile s in
      s <- (if Nat.eqb level 0 then
              let doc := FormatDoc (fn_doc (funcs g)) in
              if String.eqb doc "" then Ok s
              else match cur with
                   | None => Panic
                   | Some p => match nth_error (ps_heap s) p with
                               | None => Panic
                               | Some r => Ok (store p (with_doc (TrimSpace doc) r) s)
                               end
                   end
            else Ok s) ;;
      ctx <- fn_ctx (funcs g) (ps_file s) ;;
      if String.eqb ctx "" then Ok (s, Some "failed to find context variable name")
      else
        x <- inspect (visit (fun g' cur' f' s' => parseFunction n funcs cs g' cur' f' (S level) s')
                            cs ctx activeFile)
                     (fn_body (funcs g)) s (mkL cur None) ;;
        match l_err (snd x) with
        | Some e => Ok (fst x, Some e)
        | None =>
            match deref (l_cur (snd x)) (fst x) with
            | None => Panic
            | Some r => if Nat.eqb (List.length (rt_returns r)) 0 && Nat.eqb level 0
                        then Ok (fst x, Some "return type not found")
                        else Ok (fst x, None)
            end
        end
  end.

(** ** parseRoute.go *)

(** A function literal in a function: the line it starts at, as the file set of a given active file
    reports it, and the literals inside. *)
Inductive lit := Lit (line : file -> Z) (g : funcref) (inner : list lit).
(** A top-level function or method: name, line, and the literals in it. *)
Record fdecl := mkFD { fd_name : string; fd_line : file -> Z; fd_ref : funcref; fd_lits : list lit }.

(** The program being analysed: its functions; the files of a package with their declarations, or
    None if the package cannot be loaded (parseRoute.go:46-56, with the path loader at 26-31); the
    custom functions; strcase.ToLowerCamel (an external library, not modelled). *)
Record program := mkProg {
  pr_funcs : funcref -> func;
  pr_package : string -> option (list (string * file * list fdecl));
  pr_customs : list customFunc;
  pr_lowerCamel : string -> string }.

(** path.Base: trailing slashes removed, then the last element; dot for the empty string, a slash
    for a path of slashes only. *)
Fixpoint trim_trailing_slashes (s : string) : string :=
  match s with
  | EmptyString => EmptyString
  | String c r =>
      match trim_trailing_slashes r with
      | EmptyString => if Ascii.eqb c "/" then EmptyString else str1 c
      | r' => String c r'
      end
  end.
(** path.Base. *)
Definition path_Base (p : string) : string :=
  match p with
  | EmptyString => "."
  | _ => match after_last "/" (trim_trailing_slashes p) with EmptyString => "/" | b => b end
  end.

(** parseRoute.go:114-122 and 142-150: one analysis at level 0; its error is only logged. *)
Definition parse0 (fuel : nat) (prog : program) (g : funcref) (s : pstate) : outcome pstate :=
  x <- parseFunction fuel (pr_funcs prog) (pr_customs prog) g (Some 0) (ps_file s) 0 s ;; Ok (fst x).

(** parseRoute.go:95-127: every literal starting at the line, outermost only. *)
Fixpoint inline (fuel : nat) (prog : program) (line : Z) (l : lit) (s : pstate) : outcome pstate :=
  match l with
  | Lit at_ g inner =>
      if Z.eqb line (at_ (ps_file s)) then parse0 fuel prog g s
      else (fix walk (ls : list lit) (s : pstate) : outcome pstate :=
              match ls with
              | [] => Ok s
              | l :: rest => s <- inline fuel prog line l s ;; walk rest s
              end) inner s
  end.
(** The literals of a declaration, one after the other. *)
Fixpoint inlines (fuel : nat) (prog : program) (line : Z) (ls : list lit) (s : pstate) : outcome pstate :=
  match ls with
  | [] => Ok s
  | l :: rest => s <- inline fuel prog line l s ;; inlines fuel prog line rest s
  end.

(** parseRoute.go:79-154: the walk over the declarations of the file. The route is pointer 0. *)
Fixpoint decls (fuel : nat) (prog : program) (name : string) (line : Z) (ds : list fdecl) (s : pstate)
  : outcome pstate :=
  match ds with
  | [] => Ok s
  | d :: rest =>
      s <- (if String.eqb (fd_name d) name then
              if Z.eqb line (fd_line d (ps_file s)) then
                match nth_error (ps_heap s) 0 with
                | None => Panic
                | Some r => parse0 fuel prog (fd_ref d)
                              (store 0 (with_operationId (pr_lowerCamel prog name) r) s)
                end
              else inlines fuel prog line (fd_lits d) s
            else Ok s) ;;
      decls fuel prog name line rest s
  end.

(** parseRoute.go:58-64: the first file with the base name. *)
Definition find_file (files : list (string * file * list fdecl)) (name : string)
  : option (file * list fdecl) :=
  match List.find (fun x => String.eqb (path_Base (fst (fst x))) (path_Base name)) files with
  | Some (_, f, ds) => Some (f, ds)
  | None => None
  end.

(** parseRoute.go:21-161: the route and the components afterwards. *)
Definition parseRoute (fuel : nat) (prog : program) (route : Route) (comps : list Field)
  : outcome (Route * list Field) :=
  let handler := SplitHandlerPath (rt_handler route) in
  match hp_handlerParts handler with
  | [] => Err "invalid handler name"
  | funcName :: _ =>
      match pr_package prog (PackagePath handler) with
      | None => Err "package"
      | Some files =>
          match find_file files (rt_file route) with
          | None => Err "could not find file"
          | Some (f, ds) =>
              let route := with_pathParams (ExtractParamsFromPath (rt_path route)) route in
              s <- decls fuel prog funcName (rt_line route) ds (mkPS f [route] comps) ;;
              match nth_error (ps_heap s) 0 with
              | None => Panic
              | Some r => Ok (r, ps_comps s)
              end
          end
      end
  end.

(** inputs/gin/parseRoutes.go:11-30: the loop reads the element at each index when it gets there
    (the slice header is fixed, its elements are replaced in place). The routes and components
    afterwards, and the error. *)
Fixpoint parse_from (fuel : nat) (prog : program) (n i : nat) (routes : list Route) (comps : list Field)
  : outcome (list Route * list Field * option string) :=
  match n with
  | O => Ok (routes, comps, None)
  | S n =>
      match nth_error routes i with
      | None => Ok (routes, comps, None)
      | Some r =>
          match parseRoute fuel prog r comps with
          | Ok x => parse_from fuel prog n (S i) (ReplaceRoute (fst x) routes) (snd x)
          | Err e => Ok (routes, comps, Some e)
          | Panic => Panic
          | OutOfFuel => OutOfFuel
          end
      end
  end.
(** inputs/gin/parseRoutes.go:11-30. *)
Definition GinParseRoutes (fuel : nat) (prog : program) (routes : list Route) (comps : list Field) :=
  parse_from fuel prog (List.length routes) 0 routes comps.
