(** From source to what the handler analysis works on: astTraversal/traverser.go, callExpression.go, function.go,
    packageNode.go, fileNode.go, expression.go (Type), and contextFuncBuilder.go's use of them.  M_Parse takes
    the answers of these functions as given; here they are computed, from the syntax trees and from what
    go/parser and go/types say about them. *)
From Coq Require Import List String Ascii Bool ZArith Arith.
From Verif Require Import BaseStr M_Types M_Paths M_Tags M_TypeTrav M_Value M_Parse.
Import ListNotations.
Local Open Scope string_scope.

(** ** Syntax *)

(** What an ast.Object or a file scope refers to (go/ast: Object.Decl): a function declaration, or
    another node (a field, a spec, an assignment, a label). *)
Inductive dkind := DkFunc (g : funcref) | DkOther.
(** The declaration, if it is that of a function. *)
Definition as_func (d : dkind) : option funcref := match d with DkFunc g => Some g | DkOther => None end.

(** & and <- and the arithmetic and logical operators. *)
Inductive unop := UAddr | URecv | UArith.

(** A syntax tree, as far as the code tells nodes apart. Identifiers, literals and type expressions carry
    a number, the identity of the node go/types knows them by. An identifier also has its Obj field: none,
    or an object with a declaration that is a node or not. Everything else (statements, function
    literals, slices, type assertions ...) is [EOther] with its children in source order, and so might be
    parentheses, index and binary expressions be as far as the code goes; they are kept apart for the
    specification ([isComparison] as well). *)
Inductive ex :=
| EIdent (id : nat) (name : string) (obj : option (option dkind))
| ESel (x : ex) (id : nat) (name : string)
| ELit (id : nat) (isString : bool) (text : string)
| ECall (f : ex) (args : list ex)
| EStar (x : ex)
| EUnary (op : unop) (x : ex)
| EArrayType (id : nat) (inner : list ex)
| EMapType (id : nat) (inner : list ex)
| EComposite (typ : option ex) (elts : list ex)
| EParen (x : ex)
| EIndex (x i : ex)
| EBinary (isComparison : bool) (x y : ex)
| EOther (children : list ex).

(** A field of a parameter list: its names, and the number of its type expression. *)
Record param := mkPar { pa_names : list string; pa_type : nat }.
(** A function declaration or literal: the text of its comment, its parameters, its body. *)
Record fdef := mkFn { fs_doc : string; fs_params : list param; fs_body : ex }.

(** ** What go/types says *)

(** types.Object: a function with its receiver and results, a builtin, a constant, a variable (or
    field), a type name, a package name.  The types of parameters are not read for gin. *)
Inductive tobj :=
| TFunc (name : string) (recv : option gtype) (results : list gtype)
| TBuiltin (name : string)
| TConst (v : constval) (t : gtype)
| TVar (t : gtype)
| TType (t : gtype)
| TPkg (pkg : nat).

(** types.Object.Type.  Signatures are [GOther]; of builtins and package names the type is
    types.Typ[types.Invalid]. *)
Definition obj_type (o : tobj) : gtype :=
  match o with
  | TFunc _ _ _ => GOther
  | TConst _ t | TVar t | TType t => t
  | TBuiltin _ | TPkg _ => GBasic "invalid type" KOther
  end.

(** What ASTAtPos (packageNode.go:167-199) finds at the position of an object. *)
Inductive dnode := NSpec (names : list ex) (values : list ex) | NAssign (lhs rhs : list ex) | NNode.

(** A file: its package, its imports (the local name, empty if there is none, and the package), and the
    objects of its scope (ast.File.Scope). *)
Record finfo := mkFile {
  fi_pkg : nat; fi_imports : list (string * nat); fi_scope : string -> option (option dkind) }.
(** A package: its import path; the file of the object its scope (types.Package.Scope) has for a name;
    TypesInfo: the objects of identifiers, the types of expressions, and Defs in iteration order (names, and
    objects where there is one). *)
Record pinfo := mkPkg {
  pi_path : string; pi_scope : string -> option file;
  pi_objectOf : nat -> option nat; pi_typeOf : nat -> option gtype;
  pi_defs : list (string * option nat) }.

(** The loaded code: files, packages, objects, the nodes at and the packages of objects, types, and functions.
    Every file node has a package, and a package that loads is type checked (loadPackage.go:48-59). *)
Record code := mkCode {
  co_file : file -> finfo; co_pkg : nat -> pinfo; co_obj : nat -> tobj;
  co_at : nat -> option dnode; co_home : nat -> nat; co_types : TypeEnv; co_func : funcref -> fdef }.

Section Resolve.
  Context (co : code).

  Definition path_of (p : nat) : string := pi_path (co_pkg co p).
  (** packageManager.go:65-93: whether Get answers. *)
  Definition loads (p : nat) : bool := te_loads (co_types co) (path_of p).
  (** The package of a file. *)
  Definition pkg_of (f : file) : nat := fi_pkg (co_file co f).

  (** fileNode.go:22-30: the first import with the local name, or with the last element of the path, which
      is the name of its node in the package tree (C51). *)
  Definition import_matches (ident : string) (im : string * nat) : bool :=
    String.eqb (fst im) ident || String.eqb (after_last "/" (path_of (snd im))) ident.
  Definition FindImport (f : file) (ident : string) : option nat :=
    option_map snd (find (import_matches ident) (fi_imports (co_file co f))).

  (** packageNode.go:55-90: the declaration the scope of the object's file has for the name, and that
      file.  Files and syntax trees of a package match (packageManager.go:82-89). *)
  Definition FindASTForType (p : nat) (name : string) : option (dkind * file) :=
    match pi_scope (co_pkg co p) name with
    | None => None
    | Some f => match fi_scope (co_file co f) name with
                | Some (Some d) => Some (d, f)
                | _ => None
                end
    end.

  (** traverser.go:97-108 and 117-128, followed by callExpression.go:33 and function.go:15-37. *)
  Definition in_package (p : nat) (name : string) : declres :=
    if loads p then
      match FindASTForType p name with
      | Some (d, f) => DFound (Some f) (as_func d)
      | None => DErr
      end
    else DErr.

  (** traverser.go:84-135, callExpression.go:27-39 *)
  Fixpoint FindDeclarationForNode (f : file) (e : ex) : declres :=
    match e with
    | EUnary _ x => FindDeclarationForNode f x
    | EIdent _ _ (Some (Some d)) => DFound None (as_func d)
    | EIdent _ _ (Some None) => DErr
    | EIdent _ name None => in_package (pkg_of f) name
    | ESel (EIdent _ x _) _ name =>
        match FindImport f x with
        | Some p => in_package p name
        | None => DErr
        end
    | _ => DErr
    end.

  (** packageNode.go:141-152 *)
  Definition FindObjectForIdent (p id : nat) : option tobj := option_map (co_obj co) (pi_objectOf (co_pkg co p) id).
  (** packageNode.go:118-139 *)
  Definition FindObjectForIdentFuzzy (p id : nat) (name : string) : option tobj :=
    match FindObjectForIdent p id with
    | Some o => Some o
    | None => match find (fun d => String.eqb (fst d) name) (pi_defs (co_pkg co p)) with
              | Some (_, Some o) => Some (co_obj co o)
              | _ => None
              end
    end.

  (** callExpression.go:60-87 *)
  Definition CallType (f : file) (fn : ex) : outcome (string * option gtype * list gtype) :=
    match (match fn with
           | EIdent id _ _ => Some id
           | ESel _ id _ => Some id
           | _ => None
           end) with
    | None => Err "invalid node type"
    | Some id =>
        match FindObjectForIdent (pkg_of f) id with
        | None => Err "object not found"
        | Some (TFunc name recv results) => Ok (name, recv, results)
        | Some (TBuiltin _) => Err "built-in function"
        | Some _ => Err "invalid node type"
        end
    end.

  (** callExpression.go:89-105 *)
  Definition ReturnType (f : file) (fn : ex) (returnNum : nat) : outcome gtype :=
    x <- CallType f fn ;;
    match nth_error (snd x) returnNum with
    | Some t => Ok t
    | None => Err "invalid index"
    end.

  (** packageNode.go:92-103 *)
  Definition FindTypeForExpr (p id : nat) : outcome gtype :=
    match pi_typeOf (co_pkg co p) id with Some t => Ok t | None => Err "type not found" end.

  (** expression.go:32-46 and 135-180, with ReturnNum 0 (contextFuncBuilder.go:45).  A call of something
      named new, make or len is taken for the builtin; Args[0] panics on no arguments. *)
  Fixpoint ExprType (f : file) (e : ex) : outcome gtype :=
    match e with
    | EStar x => ExprType f x
    | EUnary _ x => ExprType f x
    | EIdent id name _ =>
        match FindObjectForIdentFuzzy (pkg_of f) id name with
        | Some o => Ok (obj_type o)
        | None => Err "object not found"
        end
    | ESel _ id _ =>
        match FindObjectForIdent (pkg_of f) id with
        | Some o => Ok (obj_type o)
        | None => Err "object not found"
        end
    | EArrayType id _ | EMapType id _ | ELit id _ _ => FindTypeForExpr (pkg_of f) id
    | EComposite (Some t) _ => ExprType f t
    | EComposite None _ => Err "unsupported expression type"
    | ECall fn args =>
        let returned := ReturnType f fn 0 in
        match fn with
        | EIdent _ name _ =>
            if str_in name ["new"; "make"] then
              match args with
              | a :: _ => ExprType f a
              | [] => Panic
              end
            else if String.eqb name "len" then Ok (GBasic "int" KInt)
            else returned
        | _ => returned
        end
    | EParen _ | EIndex _ _ | EBinary _ _ _ | EOther _ => Err "unsupported expression type"
    end.

  (** contextFuncBuilder.go:43-51 *)
  Definition ExprResult (fuel : nat) (f : file) (e : ex) : writer Result :=
    match ExprType f e with
    | Ok t => TypeResult fuel (co_types co) true (Some (path_of (pkg_of f))) "" t
    | Err m => wret (Err m)
    | Panic => wret Panic
    | OutOfFuel => wret OutOfFuel
    end.

  (** types.TypeString with the package path, for receivers: a pointer, a named type with its package;
      instances of generic types (with their arguments) and interface literals are not told apart. *)
  Fixpoint type_string (t : gtype) : string :=
    match t with
    | GPointer e => "*" ++ type_string e
    | GNamed id => match te_pkg (co_types co) id with
                   | Some p => p ++ "." ++ te_name (co_types co) id
                   | None => te_name (co_types co) id
                   end
    | _ => "interface{}"
    end.

  (** parseFunction.go:105-123: the object the call is of, its receiver as text. *)
  Definition CallObject (f : file) (fn : ex) : objres :=
    match CallType f fn with
    | Ok (name, recv, _) => OFunc name (option_map type_string recv)
    | Err e => OErr e
    | _ => OErr ""
    end.

  (** function.go:60-72: the name given to a parameter of the type looked for, if the parameter is one:
      named.Obj().Pkg() is nil for error, arg.Names is empty for an unnamed parameter. *)
  Definition param_name (typeName packagePath : string) (names : list string) (t : gtype) : option (outcome string) :=
    let first := match names with n :: _ => Ok n | [] => Panic end in
    match t with
    | GNamed id =>
        match te_pkg (co_types co) id with
        | None => Some Panic
        | Some p => if String.eqb p packagePath && String.eqb (te_name (co_types co) id) typeName
                    then Some first else None
        end
    | GBasic b _ => if String.eqb b typeName then Some first else None
    | _ => None
    end.

  (** function.go:53-76 *)
  Fixpoint FindArgumentNameByType (f : file) (typeName packagePath : string) (isPointer : bool) (ps : list param)
    : outcome string :=
    match ps with
    | [] => Ok ""
    | a :: rest =>
        let next := FindArgumentNameByType f typeName packagePath isPointer rest in
        match FindTypeForExpr (pkg_of f) (pa_type a) with
        | Ok t =>
            match (if isPointer then match t with GPointer e => Some e | _ => None end else Some t) with
            | None => next
            | Some t => match param_name typeName packagePath (pa_names a) t with
                        | Some o => o
                        | None => next
                        end
            end
        | _ => next
        end
    end.

  (** parseFunction.go:13-20, 44 *)
  Definition context_name (f : file) (g : funcref) : outcome string :=
    FindArgumentNameByType f "Context" "github.com/gin-gonic/gin" true (fs_params (co_func co g)).

  (** traverser.go:45-82, the Type of the result: the name of an identifier; of a selector whose operand is an
      identifier after any number of selections, the name selected; otherwise empty. *)
  Fixpoint rooted (e : ex) : bool :=
    match e with EIdent _ _ _ => true | ESel x _ _ => rooted x | _ => false end.
  Definition ExtractVarName (e : ex) : string :=
    match e with
    | EIdent _ name _ => name
    | ESel x _ name => if rooted x then name else ""
    | _ => ""
    end.

  (** Expressions as Value sees them, in a file: the objects are those its package knows. *)
  Definition vx_of (f : file) (e : ex) : vx :=
    match e with
    | ELit _ true text => XString text
    | ELit _ false text => XLit text
    | EIdent id name _ => XIdent name (pi_objectOf (co_pkg co (pkg_of f)) id)
    | ESel _ id name => XSel name (pi_objectOf (co_pkg co (pkg_of f)) id)
    | _ => XOther
    end.
  Definition vnode_of (f : file) (n : dnode) : vnode :=
    match n with
    | NSpec names values => VSpec (map ExtractVarName names) (map (vx_of f) values)
    | NAssign lhs rhs => VAssign (map ExtractVarName lhs) (map (vx_of f) rhs)
    | NNode => VNode
    end.
  (** Defs entries without an object are not answers (packageNode.go:124-136): the first entry of a name
      decides; here such entries are left out, a simplification: they are those of package clauses and of
      the symbolic variables of type switches. *)
  Definition defs_of (p : nat) : list (string * nat) :=
    flat_map (fun d => match snd d with Some o => [(fst d, o)] | None => [] end) (pi_defs (co_pkg co p)).
  Definition venv_of (f : file) : venv :=
    mkVE (fun o => match co_obj co o with
                   | TConst v _ => VConst v
                   | _ => VVar (option_map (vnode_of f) (co_at co o))
                   end)
         (co_home co) loads (pkg_of f) defs_of.
  (** expression.go:48-133 *)
  Definition ExprValue (fuel : nat) (f : file) (e : ex) : outcome string := Value fuel (venv_of f) (vx_of f e).

  (** ** The tree parseFunction walks over *)
  Definition arg_of (fuel : nat) (e : ex) : arg :=
    mkArg (match e with EIdent _ name _ => Some name | _ => None end)
          (fun f => ExprValue fuel f e) (fun f => ExprResult fuel f e).
  Definition call_of (fuel : nat) (fn : ex) (args : list ex) : call :=
    mkCall (map (arg_of fuel) args) (fun f => FindDeclarationForNode f fn) (fun f => CallObject f fn).

  (** ast.Inspect's view: the children of each node in source order (go/ast/walk.go). *)
  Fixpoint tree (fuel : nat) (e : ex) : node :=
    match e with
    | EIdent _ _ _ | ELit _ _ _ => Node None []
    | ESel x _ _ => Node None [tree fuel x; Node None []]
    | ECall fn args => Node (Some (call_of fuel fn args)) (tree fuel fn :: map (tree fuel) args)
    | EStar x | EUnary _ x | EParen x => Node None [tree fuel x]
    | EIndex x y | EBinary _ x y => Node None [tree fuel x; tree fuel y]
    | EArrayType _ inner | EMapType _ inner => Node None (map (tree fuel) inner)
    | EComposite (Some t) elts => Node None (tree fuel t :: map (tree fuel) elts)
    | EComposite None elts => Node None (map (tree fuel) elts)
    | EOther children => Node None (map (tree fuel) children)
    end.

  Definition func_of (fuel : nat) (g : funcref) : func :=
    mkFunc (fs_doc (co_func co g)) (fun f => context_name f g) (tree fuel (fs_body (co_func co g))).
End Resolve.
