(** What Go says about names, types and contexts in a piece of source, for C66 to C70. *)
From Coq Require Import List String Ascii Bool ZArith Arith.
From Verif Require Import BaseStr M_Types M_Paths M_Tags M_TypeTrav M_Value S_Value M_Parse S_Parse M_Resolve.
Import ListNotations.
Local Open Scope string_scope.

(** The parts of a node, in source order, and the nodes within a node. *)
Definition parts (e : ex) : list ex :=
    match e with
    | EIdent _ _ _ | ELit _ _ _ => []
    | ESel x id name => [x; EIdent id name None]
    | EStar x | EUnary _ x | EParen x => [x]
    | EIndex x y | EBinary _ x y => [x; y]
    | EArrayType _ l | EMapType _ l | EOther l | EComposite None l => l
    | EComposite (Some t) l => t :: l
    | ECall fn args => fn :: args
    end.
Inductive within (x : ex) : ex -> Prop :=
| wi_here : within x x
| wi_part p e : In p (parts e) -> within x p -> within x e.

Section Go.
  Context (co : code).

  (** ** Objects *)

  (** The object an identifier or a selector denotes in a file, by go/types. *)
  Definition object_at (f : file) (id : nat) (o : nat) : Prop := pi_objectOf (co_pkg co (pkg_of co f)) id = Some o.
  Inductive denotes (f : file) : ex -> nat -> Prop :=
  | de_ident id name obj o : object_at f id o -> denotes f (EIdent id name obj) o
  | de_sel x id name o : object_at f id o -> denotes f (ESel x id name) o.

  (** *gin.Context *)
  Definition gin_context (t : gtype) : Prop :=
    exists id, t = GPointer (GNamed id) /\ te_pkg (co_types co) id = Some "github.com/gin-gonic/gin" /\
               te_name (co_types co) id = "Context".
  (** The receiver of a method: a named type or a pointer to one. Packages have no asterisk in their path and
      types no dot in their name. *)
  Definition receiver (t : gtype) : Prop :=
    exists id p, (t = GNamed id \/ t = GPointer (GNamed id)) /\ te_pkg (co_types co) id = Some p /\
                 has_prefix "*" p = false /\ has_char "." (te_name (co_types co) id) = false.

  (** ** Functions

      [home o] is where a function is declared: its file, its name and the function itself. Nothing in the
      code reads it. *)
  Context (home : nat -> option (file * string * funcref)).

  (** A function of a package: not a method. *)
  Definition top_level (o : nat) : Prop := exists name results, co_obj co o = TFunc name None results.

  (** What the parser and the type checker say agrees: a function of a package is found in the scope of its
      package and in the scope of its file under its name, the package being that of the file. *)
  Definition scopes_agree : Prop := forall o f name g,
    home o = Some (f, name, g) -> top_level o ->
    pi_scope (co_pkg co (pkg_of co f)) name = Some f /\ fi_scope (co_file co f) name = Some (Some (DkFunc g)) /\
    co_home co o = pkg_of co f.

  (** An identifier that names a function of a package: the parser has found the declaration in the file, or
      has not found any, and the function belongs to the package; it is not dot imported. *)
  Definition ident_agrees (f : file) (name : string) (obj : option (option dkind)) (o : nat) : Prop :=
    forall f' name' g, home o = Some (f', name', g) ->
      name = name' /\ (obj = Some (Some (DkFunc g)) /\ f' = f \/ obj = None /\ pkg_of co f' = pkg_of co f).

  (** An identifier that names a package, and a selection from it: the import of that name is the only one
      the name or the last path element of which is the identifier. *)
  Definition plain_import (f : file) (x : string) (p : nat) : Prop :=
    (exists im, In im (fi_imports (co_file co f)) /\ snd im = p /\
                (fst im = x \/ after_last "/" (path_of co p) = x)) /\
    forall im, In im (fi_imports (co_file co f)) ->
      fst im = x \/ after_last "/" (path_of co (snd im)) = x -> snd im = p.

  (** [calls_function f e f' g]: the expression, in file [f], is a function of a package by its
      name, or by its name and that of a plainly imported package, and the function is [g] of file [f']. *)
  Inductive calls_function (f : file) : ex -> file -> funcref -> Prop :=
  | cf_ident id name obj o f' name' g :
      object_at f id o -> top_level o -> home o = Some (f', name', g) -> ident_agrees f name obj o ->
      calls_function f (EIdent id name obj) f' g
  | cf_sel idx x objx ox p id name o f' g :
      object_at f idx ox -> co_obj co ox = TPkg p -> plain_import f x p ->
      object_at f id o -> top_level o -> home o = Some (f', name, g) -> co_home co o = p ->
      calls_function f (ESel (EIdent idx x objx) id name) f' g.

  (** ** Types *)

  (** The type a type expression denotes. *)
  Inductive denotes_type (f : file) : ex -> gtype -> Prop :=
  | dt_name e o t : denotes f e o -> co_obj co o = TType t -> denotes_type f e t
  | dt_array id inner t : pi_typeOf (co_pkg co (pkg_of co f)) id = Some t -> denotes_type f (EArrayType id inner) t
  | dt_map id inner t : pi_typeOf (co_pkg co (pkg_of co f)) id = Some t -> denotes_type f (EMapType id inner) t
  | dt_pointer x t : denotes_type f x t -> denotes_type f (EStar x) (GPointer t).

  (** The identifier is the builtin of that name. *)
  Definition builtin (f : file) (e : ex) (name : string) : Prop :=
    exists id obj o, e = EIdent id name obj /\ object_at f id o /\ co_obj co o = TBuiltin name.

  (** [typed f e t]: the expression has the static type [t], for the common forms of expressions. *)
  Inductive typed (f : file) : ex -> gtype -> Prop :=
  | ty_var e o t : denotes f e o -> co_obj co o = TVar t -> typed f e t
  | ty_const e o v t : denotes f e o -> co_obj co o = TConst v t -> typed f e t
  | ty_lit id s text t : pi_typeOf (co_pkg co (pkg_of co f)) id = Some t -> typed f (ELit id s text) t
  | ty_deref x t : typed f x (GPointer t) -> typed f (EStar x) t
  | ty_deref_named x id t : typed f x (GNamed id) -> te_under (co_types co) id = GPointer t -> typed f (EStar x) t
  | ty_addr x t : typed f x t -> typed f (EUnary UAddr x) (GPointer t)
  | ty_arith x t : typed f x t -> typed f (EUnary UArith x) t
  | ty_composite ty elts t : denotes_type f ty t -> typed f (EComposite (Some ty) elts) t
  | ty_call fn args o name recv t :
      denotes f fn o -> co_obj co o = TFunc name recv [t] -> typed f (ECall fn args) t
  | ty_new fn a t : builtin f fn "new" -> denotes_type f a t -> typed f (ECall fn [a]) (GPointer t)
  | ty_make fn a rest t : builtin f fn "make" -> denotes_type f a t -> typed f (ECall fn (a :: rest)) t
  | ty_len fn a : builtin f fn "len" -> typed f (ECall fn [a]) (GBasic "int" KInt)
  | ty_conversion fn x t : denotes_type f fn t -> typed f (ECall fn [x]) t
  | ty_paren x t : typed f x t -> typed f (EParen x) t
  | ty_index_slice x i t : typed f x (GSlice t) -> typed f (EIndex x i) t
  | ty_index_map x i k t : typed f x (GMap k t) -> typed f (EIndex x i) t
  | ty_compare x y : typed f (EBinary true x y) (GBasic "bool" KBool)
  | ty_binary x y t : typed f x t -> typed f (EBinary false x y) t.

  (** The identifiers called like the builtins are the builtins. *)
  Definition builtins_kept (f : file) (e : ex) : Prop := forall id name obj,
    within (EIdent id name obj) e -> In name ["new"; "make"; "len"] -> builtin f (EIdent id name obj) name.
  (** No named type is defined as a pointer. *)
  Definition no_named_pointers : Prop := forall id t, te_under (co_types co) id <> GPointer t.

  (** The expressions whose type can be found: names, selections, literals, composite literals, calls of
      functions, methods, new, make and len, and any of these behind *, & and arithmetic signs. *)
  Inductive simple (f : file) : ex -> Prop :=
  | si_ident id name obj : simple f (EIdent id name obj)
  | si_sel x id name : simple f (ESel x id name)
  | si_lit id s text : simple f (ELit id s text)
  | si_star x : simple f x -> simple f (EStar x)
  | si_unary op x : simple f x -> simple f (EUnary op x)
  | si_composite ty elts : simple f (EComposite ty elts)
  | si_call fn args : (forall t, ~ denotes_type f fn t) -> simple f (ECall fn args).

  (** What a type is behind pointers. *)
  Fixpoint behind (t : gtype) : gtype := match t with GPointer e => behind e | _ => t end.

  (** ** Parameters *)
  Definition param_type (f : file) (a : param) (t : gtype) : Prop :=
    pi_typeOf (co_pkg co (pkg_of co f)) (pa_type a) = Some t.
  (** The parameter is the gin context. *)
  Definition is_context (f : file) (a : param) : Prop := exists t, param_type f a t /\ gin_context t.
  (** The parameter is a pointer to a type without a package, such as error. *)
  Definition packageless (f : file) (a : param) : Prop :=
    exists id, param_type f a (GPointer (GNamed id)) /\ te_pkg (co_types co) id = None.
  (** A parameter the code has no trouble with: not of a type without a package, and, as in all Go programs,
      no basic type is called Context. *)
  Definition sane_param (f : file) (a : param) : Prop :=
    ~ packageless f a /\ forall k, ~ param_type f a (GPointer (GBasic "Context" k)).
  (** The first context among the parameters, and its (first) name. *)
  Definition first_context (f : file) (ps : list param) (name : string) : Prop :=
    exists pre a post more, ps = (pre ++ a :: post)%list /\ is_context f a /\ pa_names a = name :: more /\
      forall b, In b pre -> ~ is_context f b.

  (** ** What the source of a function documents *)

  (** The status an argument stands for: a decimal literal, or an integer constant; the first by its name, or by
      a selection from a package in which the name is declared only once. *)
  Inductive status (f : file) : ex -> Z -> Prop :=
  | st_lit id text z : digits_in 10 text z -> (text = "0" \/ has_prefix "0" text = false) -> (z < 2 ^ 63)%Z ->
      status f (ELit id false text) z
  | st_ident id name obj o t z : object_at f id o -> co_obj co o = TConst (CInt z) t ->
      (- 2 ^ 63 <= z < 2 ^ 63)%Z -> status f (EIdent id name obj) z
  | st_sel x id name o t z : object_at f id o -> co_obj co o = TConst (CInt z) t ->
      (- 2 ^ 63 <= z < 2 ^ 63)%Z -> loads co (co_home co o) = true ->
      In (name, Some o) (pi_defs (co_pkg co (co_home co o))) ->
      (forall o', In (name, o') (pi_defs (co_pkg co (co_home co o))) -> o' = Some o) ->
      status f (ESel x id name) z.

  (** [written names values name x]: in a declaration or assignment, [x] is the value at the place of the name. *)
  Definition written (names values : list ex) (name : string) (x : ex) : Prop :=
    exists pre id obj post vpre vpost, names = (pre ++ EIdent id name obj :: post)%list /\
      (forall y, In y pre -> exists i n o, y = EIdent i n o /\ n <> name) /\
      values = (vpre ++ x :: vpost)%list /\ List.length vpre = List.length pre.
  (** An argument that stands for a string literal, directly or through declarations of variables. *)
  Inductive stands_for (f : file) : ex -> string -> Prop :=
  | sf_lit id text : stands_for f (ELit id true text) text
  | sf_var id name obj o t n names values x text :
      object_at f id o -> co_obj co o = TVar t -> co_at co o = Some n ->
      n = NSpec names values \/ n = NAssign names values -> written names values name x ->
      stands_for f x text -> stands_for f (EIdent id name obj) text.
  (** The name an argument stands for: a string literal without escapes. *)
  Definition text_of (f : file) (e : ex) (s : string) : Prop :=
    exists text, stands_for f e text /\ interpreted s s text /\ has_char "\" s = false.

  (** The field that documents a value of the argument's static type, with the components registered. *)
  Definition value_of (f : file) (e : ex) (regs : list Result) (x : Field) : Prop :=
    exists t n r, typed f e t /\ simple f e /\ builtins_kept f e /\
      TypeResult n (co_types co) true (Some (path_of co (pkg_of co f))) "" t = (regs, Ok r) /\ x = ParseResultToField r.

  (** A call of a context method with these arguments documents [es] and registers [regs] (c.Data is left
      out, as in S_Parse). *)
  Inductive context_call (f : file) : string -> list ex -> list event -> list Result -> Prop :=
  | cc_render name content a b rest z x regs :
      In (name, content) renderers -> status f a z -> value_of f b regs x ->
      context_call f name (a :: b :: rest) [EReturn (mkRet z content x)] regs
  | cc_answer name typ content a rest z :
      In (name, (typ, content)) answers -> status f a z ->
      context_call f name (a :: rest) [EReturn (mkRet z content (field_of_type typ))] []
  | cc_read name ev a rest s :
      In (name, ev) readers -> text_of f a s -> context_call f name (a :: rest) [ev s] []
  | cc_bind name ev a rest x regs :
      In (name, ev) binders -> value_of f a regs x -> context_call f name (a :: rest) (ev x) regs
  | cc_other name args : ~ In name documented_methods -> context_call f name args [] [].

  Definition mentions (ctx : string) (args : list ex) : Prop := exists id obj, In (EIdent id ctx obj) args.

  Definition is_call (e : ex) : Prop := exists fn args, e = ECall fn args.

  (** The called expression is not a function or method by its name: a builtin, a type (a conversion), a
      variable, or an expression of another form. *)
  Inductive no_function (f : file) : ex -> Prop :=
  | nf_object e o : denotes f e o -> (forall name recv results, co_obj co o <> TFunc name recv results) -> no_function f e
  | nf_form e : (forall id name obj, e <> EIdent id name obj) -> (forall x id name, e <> ESel x id name) -> no_function f e.

  (** [says ctx f e es regs last]: the source [e] of file [f], with the context called [ctx], documents the
      events [es], in source order, and registers [regs]: calls of methods of the context document what
      they mean, calls that pass the context document what the function called documents, before what
      is in their arguments; nothing else does. There is nothing to document in the arguments of builtins,
      conversions and function values. [last] tells that such a call comes last. *)
  Inductive says : string -> file -> ex -> list event -> list Result -> bool -> Prop :=
  | says_node ctx f e es regs last : ~ is_call e -> says_all ctx f (parts e) es regs last -> says ctx f e es regs last
  | says_skip ctx f fn args last :
      ~ mentions ctx args -> no_function f fn -> says_all ctx f (fn :: args) [] [] last ->
      says ctx f (ECall fn args) [] [] true
  | says_other ctx f fn args o name recv results es regs last :
      ~ mentions ctx args -> denotes f fn o -> co_obj co o = TFunc name recv results ->
      (forall t, recv = Some t -> receiver t /\ ~ gin_context t) ->
      says_all ctx f (fn :: args) es regs last -> says ctx f (ECall fn args) es regs last
  | says_context ctx f fn args o name recv results es1 regs1 es2 regs2 last :
      ~ mentions ctx args -> denotes f fn o -> co_obj co o = TFunc name (Some recv) results -> gin_context recv ->
      context_call f name args es1 regs1 -> says_all ctx f (fn :: args) es2 regs2 last ->
      says ctx f (ECall fn args) (es1 ++ es2) (regs1 ++ regs2) last
  | says_helper ctx f fn args f' g ctx' es1 regs1 es2 regs2 last :
      mentions ctx args -> calls_function f fn f' g -> loads co (pkg_of co f') = true ->
      first_context f' (fs_params (co_func co g)) ctx' -> ctx' <> "" ->
      (forall a, In a (fs_params (co_func co g)) -> sane_param f' a) ->
      says ctx' f' (fs_body (co_func co g)) es1 regs1 false ->
      says_all ctx f (fn :: args) es2 regs2 last ->
      says ctx f (ECall fn args) (es1 ++ es2) (regs1 ++ regs2) last
  with says_all : string -> file -> list ex -> list event -> list Result -> bool -> Prop :=
  | sa_nil ctx f : says_all ctx f [] [] [] false
  | sa_one ctx f e es regs last : says ctx f e es regs last -> says_all ctx f [e] es regs last
  | sa_cons ctx f e es1 regs1 l1 e' l es2 regs2 last :
      says ctx f e es1 regs1 l1 -> says_all ctx f (e' :: l) es2 regs2 last ->
      says_all ctx f (e :: e' :: l) (es1 ++ es2) (regs1 ++ regs2) last.
End Go.
