(** What the source of a handler sends and receives: values of Go types. *)
From Coq Require Import List String Ascii Bool ZArith Arith.
From Verif Require Import BaseStr M_Types M_TypeTrav S_TypeTrav M_Parse S_Parse M_Resolve S_Resolve.
Import ListNotations.
Local Open Scope string_scope.

(** Methods that decode the body, and the content types they decode (forms are left out). *)
Definition decoders : list (string * string) :=
  [("BindJSON", "application/json"); ("ShouldBindJSON", "application/json");
   ("BindXML", "application/xml"); ("ShouldBindXML", "application/xml");
   ("BindYAML", "application/yaml"); ("ShouldBindYAML", "application/yaml");
   ("Bind", "application/json"); ("Bind", "application/xml"); ("Bind", "application/yaml");
   ("ShouldBind", "application/json"); ("ShouldBind", "application/xml"); ("ShouldBind", "application/yaml")].

(** The encodings and the struct tags they follow. *)
Definition encodings : list (string * string) :=
  [("application/json", "json"); ("application/xml", "xml"); ("application/yaml", "yaml")].

Section Sends.
  Context (co : code) (home : nat -> option (file * string * funcref)).

  (** [calls ctx f e name args f0]: in the source [e] of file [f], with the context called [ctx], the method
      [name] of the context is called with these arguments, which are source of file [f0]: there or in a function
      that the context is passed to. *)
  Inductive calls : string -> file -> ex -> string -> list ex -> file -> Prop :=
  | ca_here ctx f fn args o name recv results :
      ~ mentions ctx args -> denotes co f fn o -> co_obj co o = TFunc name (Some recv) results -> gin_context co recv ->
      calls ctx f (ECall fn args) name args f
  | ca_part ctx f p e name args f0 : In p (parts e) -> calls ctx f p name args f0 -> calls ctx f e name args f0
  | ca_helper ctx f fn args f' g ctx' name args' f0 :
      mentions ctx args -> calls_function co home f fn f' g -> loads co (pkg_of co f') = true ->
      first_context co f' (fs_params (co_func co g)) ctx' -> calls ctx' f' (fs_body (co_func co g)) name args' f0 ->
      calls ctx f (ECall fn args) name args' f0.

  Section Handler.
    Context (ctx : string) (f : file) (e : ex).
    (** A value of the type is sent with the status, encoded as the content type says. *)
    Definition sends (z : Z) (content : string) (T : gtype) : Prop :=
      exists name a b rest f0, calls ctx f e name (a :: b :: rest) f0 /\
        In (name, content) renderers /\ status co f0 a z /\ typed co f0 b T.
    (** The body is decoded into a value of the type. *)
    Definition receives (content : string) (T : gtype) : Prop :=
      exists name a rest f0, calls ctx f e name (a :: rest) f0 /\ In (name, content) decoders /\ typed co f0 a T.
  End Handler.

  (** ** The types that can become components *)

  (** The types of what a name stands for: of a variable, constant or type, the results of a function. *)
  Definition has_type (o : tobj) (T : gtype) : Prop :=
    match o with
    | TConst _ t | TVar t | TType t => T = t
    | TFunc _ _ results => In T results
    | _ => False
    end.
  (** A name (if it has no object, one declared by that name), a type expression or a literal of the type. *)
  Inductive type_at (f : file) : ex -> gtype -> Prop :=
  | ta_name e o T : denotes co f e o -> has_type (co_obj co o) T -> type_at f e T
  | ta_declared id name obj o T : (forall o', ~ object_at co f id o') -> In (name, Some o) (pi_defs (co_pkg co (pkg_of co f))) ->
      has_type (co_obj co o) T -> type_at f (EIdent id name obj) T
  | ta_node e id T : (exists l, e = EArrayType id l) \/ (exists l, e = EMapType id l) \/ (exists s x, e = ELit id s x) ->
      pi_typeOf (co_pkg co (pkg_of co f)) id = Some T -> type_at f e T.
  (** A type that occurs in an argument of a method of the context, anywhere in the code. *)
  Definition argument_type (T : gtype) : Prop :=
    exists g f fn args o name recv results a x,
      within (ECall fn args) (fs_body (co_func co g)) /\
      denotes co f fn o /\ co_obj co o = TFunc name (Some recv) results /\ gin_context co recv /\
      In a args /\ within x a /\ type_at f x T.
  (** A named type behind such a type. *)
  Definition documented (id : nat) : Prop := exists T, argument_type T /\ reach (co_types co) true T (GNamed id).

  (** As in Go: the names of types have no dot, and import paths no asterisk in front. *)
  Definition go_names : Prop := forall id, has_char "." (te_name (co_types co) id) = false /\
    forall p, te_pkg (co_types co) id = Some p -> has_prefix "*" p = false.
End Sends.
