(** Values of expressions: astTraversal/expression.go:48-133, astTraversal/declaration.go:23-48, with
    the parts of go/constant and strconv they rest on. *)
From Coq Require Import List String Ascii Bool ZArith Arith.
From Verif Require Import BaseStr M_Types M_Tags M_OpenAPI M_TypeTrav.
Import ListNotations.
Local Open Scope string_scope.

(** ** go/constant.Value.String *)

(** strconv.Quote, byte by byte.  Simplification: bytes above 127 are copied, while Go escapes runes
    that are not printable and bytes that are not UTF-8. *)
Definition hex_digit (n : nat) : ascii := ascii_of_nat (if Nat.ltb n 10 then 48 + n else 87 + n).
(** One byte. *)
Definition quote_byte (c : ascii) : string :=
  let n := nat_of_ascii c in
  if Nat.eqb n 34 || Nat.eqb n 92 then String backslash (str1 c)
  else if Nat.ltb n 32 || Nat.eqb n 127 then
    match n with
    | 7 => String backslash "a" | 8 => String backslash "b" | 12 => String backslash "f"
    | 10 => String backslash "n" | 13 => String backslash "r" | 9 => String backslash "t"
    | 11 => String backslash "v"
    | _ => String backslash (String "x" (String (hex_digit (Nat.div n 16)) (str1 (hex_digit (Nat.modulo n 16)))))
    end
  else str1 c.
(** The text between the quotes. *)
Fixpoint quote_body (s : string) : string :=
  match s with
  | EmptyString => EmptyString
  | String c r => quote_byte c ++ quote_body r
  end.
(** With the quotes. *)
Definition Quote (s : string) : string := String dquote (quote_body s ++ str1 dquote).

(** A byte that continues a rune. *)
Definition continues (c : ascii) : bool :=
  let n := nat_of_ascii c in Nat.leb 128 n && Nat.ltb n 192.
(** utf8.RuneCountInString, on UTF-8. *)
Fixpoint rune_count (s : string) : nat :=
  match s with
  | EmptyString => 0
  | String c r => if continues c then rune_count r else S (rune_count r)
  end.
(** The first [n] runes, on UTF-8. *)
Fixpoint take_runes (n : nat) (s : string) : string :=
  match s with
  | EmptyString => EmptyString
  | String c r =>
      if continues c then String c (take_runes n r)
      else match n with O => EmptyString | S k => String c (take_runes k r) end
  end.

(** A constant: a string, an integer of any size, a boolean, or one of the other kinds with the text
    its String method gives. *)
Inductive constval := CString (s : string) | CInt (z : Z) | CBool (b : bool) | COther (text : string).

(** go/constant: the String methods.  A quoted string of more than 72 runes is cut to 69 and dots. *)
Definition constant_String (v : constval) : string :=
  match v with
  | CString s => let q := Quote s in
                 if Nat.ltb 72 (rune_count q) then take_runes 69 q ++ "..." else q
  | CInt z => itoa z
  | CBool b => if b then "true" else "false"
  | COther t => t
  end.

(** ** Expressions *)

(** An expression as Value tells them apart: a string literal and another basic literal with their
    source text, an identifier with its name, a selector with the name selected, or something else.
    [x_obj] stands for TypesInfo.ObjectOf: the object an identifier denotes, if the package of the
    active file knows it (a key into the program). *)
Inductive vx :=
| XString (text : string) | XLit (text : string)
| XIdent (name : string) (x_obj : option nat)
| XSel (name : string) (x_obj : option nat)
| XOther.

(** What ASTAtPos finds at the position of a variable: the outermost node starting there. *)
Inductive vnode := VSpec (names : list string) (values : list vx)
                 | VAssign (lhs : list string) (rhs : list vx) | VNode.
(** What a name stands for: a constant, or a variable. *)
Inductive vobj := VConst (v : constval) | VVar (at_ : option vnode).

(** The objects; for an object the package it belongs to, and whether it can be loaded; for a package,
    what FindObjectForIdentFuzzy answers for an identifier of another package: the first entry of that
    name in the iteration order of the package's Defs (packageNode.go:118-139). [v_same] tells whether
    an object's package is the one the selector is in (then the identifier is known there). *)
Record venv := mkVE {
  v_obj : nat -> vobj; v_pkg : nat -> nat; v_loads : nat -> bool; v_here : nat;
  v_defs : nat -> list (string * nat) }.

(** declaration.go:26-33 and 37-44: the index of the name, 0 if it is not there. *)
Fixpoint index_of (k : nat) (name : string) (l : list string) : nat :=
  match l with
  | [] => 0
  | x :: r => if String.eqb name x then k else index_of (S k) name r
  end.

(** declaration.go:23-48: n.Values[index] and n.Rhs[index] panic out of range. *)
Definition decl_value (name : string) (n : vnode) : outcome vx :=
  match n with
  | VSpec names values => match nth_error values (index_of 0 name names) with Some x => Ok x | None => Panic end
  | VAssign lhs rhs => match nth_error rhs (index_of 0 name lhs) with Some x => Ok x | None => Panic end
  | VNode => Err "invalid node type"
  end.

(** packageNode.go:118-139, for a selector naming object [o]. *)
Definition fuzzy (env : venv) (pkg : nat) (name : string) (o : nat) : option nat :=
  if Nat.eqb pkg (v_here env) then Some o
  else match List.find (fun d => String.eqb (fst d) name) (v_defs env pkg) with
       | Some (_, o') => Some o'
       | None => None
       end.

(** expression.go:48-133.  The fuel bounds the chain of declarations.  The expression of a variable
    of another package is looked at with the identifiers of the active file (lines 82 and 129), so its
    identifiers are unknown there: [vx] says so in its objects. *)
Fixpoint Value (fuel : nat) (env : venv) (e : vx) : outcome string :=
  match fuel with
  | O => OutOfFuel
  | S n =>
      let at_object name o :=
        match v_obj env o with
        | VConst v => Ok (constant_String v)
        | VVar None => Err "node not found"
        | VVar (Some nd) => x <- decl_value name nd ;; Value n env x
        end in
      match e with
      | XString text => Ok (trim_quotes text)
      | XLit text => Ok text
      | XIdent name o => match o with None => Err "object not found" | Some o => at_object name o end
      | XSel name o =>
          match o with
          | None => Err "object not found"
          | Some o =>
              let pkg := v_pkg env o in
              if v_loads env pkg then
                match fuzzy env pkg name o with
                | None => Err "object not found"
                | Some o => at_object name o
                end
              else Err "package"
          end
      | XOther => Err "value not retrievable"
      end
  end.
