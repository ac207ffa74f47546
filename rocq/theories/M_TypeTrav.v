(** Type analysis: astTraversal/type.go, astTraversal/result.go, astTraversal/docs.go, utils.go
    and the component registration closure of inputs/gin/parseFunction.go. *)
From Coq Require Import List String Ascii Bool ZArith Arith.
From Verif Require Import BaseStr M_Types M_Tags M_Collect.
Import ListNotations.
Local Open Scope string_scope.

(** ** strings.TrimSpace and FormatDoc *)

(** The UTF-8 encodings of the runes of unicode.IsSpace: the six ASCII ones, U+0085, U+00A0,
    U+1680, U+2000 to U+200A, U+2028, U+2029, U+202F, U+205F and U+3000.  No encoding is a
    prefix of another. *)
Definition bytes (l : list nat) : string :=
  fold_right (fun n s => String (ascii_of_nat n) s) "" l.
Definition space_runes : list string :=
  map bytes
    [[9]; [10]; [11]; [12]; [13]; [32]; [194; 133]; [194; 160]; [225; 154; 128];
     [226; 128; 128]; [226; 128; 129]; [226; 128; 130]; [226; 128; 131]; [226; 128; 132];
     [226; 128; 133]; [226; 128; 134]; [226; 128; 135]; [226; 128; 136]; [226; 128; 137];
     [226; 128; 138]; [226; 128; 168]; [226; 128; 169]; [226; 128; 175]; [226; 129; 159];
     [227; 128; 128]]%nat.

(** One leading (trailing) space rune removed, if there is one. *)
Fixpoint strip_prefix (l : list string) (s : string) : option string :=
  match l with
  | [] => None
  | p :: r => if has_prefix p s then Some (drop (String.length p) s) else strip_prefix r s
  end.
(** The same at the end. *)
Fixpoint strip_suffix (l : list string) (s : string) : option string :=
  match l with
  | [] => None
  | p :: r => if has_suffix p s then Some (take (String.length s - String.length p) s)
              else strip_suffix r s
  end.
(** As long as there is one. *)
Fixpoint trim_with (strip : string -> option string) (fuel : nat) (s : string) : string :=
  match fuel with
  | O => s
  | S n => match strip s with Some s' => trim_with strip n s' | None => s end
  end.
(** Go's strings.TrimSpace.  Every step removes at least one byte, so the length is enough. *)
Definition TrimSpace (s : string) : string :=
  let l := trim_with (strip_prefix space_runes) (String.length s) s in
  trim_with (strip_suffix space_runes) (String.length l) l.

(** Go's strings.TrimPrefix. *)
Definition TrimPrefix (s p : string) : string :=
  if has_prefix p s then drop (String.length p) s else s.

(** astTraversal/docs.go:5-7 *)
Definition FormatDoc (doc : string) : string := TrimSpace (TrimPrefix doc "//").

(** ** strconv *)

(** A decimal digit. *)
Definition digit_val (c : ascii) : option Z :=
  let n := nat_of_ascii c in
  if Nat.leb 48 n && Nat.leb n 57 then Some (Z.of_nat n - 48)%Z else None.

(** The value of decimal digits. *)
Fixpoint parse_digits (acc : Z) (s : string) : option Z :=
  match s with
  | "" => Some acc
  | String c r => match digit_val c with
                  | Some d => parse_digits (acc * 10 + d)%Z r
                  | None => None
                  end
  end.

(** A range error outside. *)
Definition in_range (lo hi : Z) (z : Z) : option Z :=
  if (lo <=? z)%Z && (z <=? hi)%Z then Some z else None.

(** strconv.ParseUint(s, 10, 64): digits only, at least one, below 2^64. *)
Definition ParseUint (s : string) : option Z :=
  match s with
  | "" => None
  | _ => match parse_digits 0 s with Some z => in_range 0 (2 ^ 64 - 1) z | None => None end
  end.

(** strconv.ParseInt(s, 10, 64), and strconv.Atoi on a 64-bit platform: an optional sign, then
    as above, in the range of int64.  Underscores and base prefixes are syntax errors in base 10. *)
Definition ParseInt (s : string) : option Z :=
  match s with
  | String "-" r => match ParseUint r with Some z => in_range (- 2 ^ 63) (2 ^ 63 - 1) (- z) | None => None end
  | String "+" r => match ParseUint r with Some z => in_range (- 2 ^ 63) (2 ^ 63 - 1) z | None => None end
  | _ => match ParseUint s with Some z => in_range (- 2 ^ 63) (2 ^ 63 - 1) z | None => None end
  end.

(** strconv.ParseBool *)
Definition ParseBool (s : string) : option bool :=
  if str_in s ["1"; "t"; "T"; "TRUE"; "true"; "True"] then Some true
  else if str_in s ["0"; "f"; "F"; "FALSE"; "false"; "False"] then Some false
  else None.

(** strings.Trim(s, <a double quote>) *)
Definition dquote : ascii := ascii_of_nat 34.
(** From the left. *)
Fixpoint trim_left_char (c : ascii) (s : string) : string :=
  match s with
  | String d r => if Ascii.eqb d c then trim_left_char c r else s
  | "" => ""
  end.
(** From the right. *)
Fixpoint trim_right_char (c : ascii) (s : string) : string :=
  match s with
  | "" => ""
  | String d r => match trim_right_char c r with
                  | "" => if Ascii.eqb d c then "" else String d ""
                  | r' => String d r'
                  end
  end.
(** From both sides. *)
Definition trim_char (c : ascii) (s : string) : string := trim_right_char c (trim_left_char c s).
(** Double quotes. *)
Definition trim_quotes (s : string) : string := trim_char dquote s.

(** ** Constant declarations of a package (type.go:53-127) *)

(** go/types.BasicKind, as far as the switch at type.go:79-117 tells kinds apart. *)
Inductive bkind := KString | KInt | KFloat | KBool | KIntN | KUintN | KOther.

(** An ast.ValueSpec: its type expression (absent, an identifier, or something else) and its
    value expressions, of which only basic literals matter to the code: their source text. *)
Inductive texpr := TxNone | TxIdent (name : string) | TxOther.
(** A value expression: a basic literal with its text, or another. *)
Inductive vexpr := VLit (text : string) | VOther.
(** [vs_declares] is not read by the code: the type checker's view of what the spec declares,
    each constant's declared type name and value, used by the specification only. *)
Record vspec := mkVS { vs_type : texpr; vs_values : list vexpr;
                       vs_declares : list (string * enumval) }.
(** A top-level declaration: a GenDecl with its const flag and its value specs (import and type
    specs dropped: the code skips them), or a function. *)
Inductive decl := DGen (isConst : bool) (specs : list vspec) | DFunc.

(** type.go:79-117: the value recorded for one basic literal, [floatOK] telling what
    strconv.ParseFloat accepts (a float is kept as its text). *)
Definition enum_value (floatOK : string -> bool) (k : bkind) (text : string) : list enumval :=
  match k with
  | KString => [EStr (trim_quotes text)]
  | KInt | KIntN => match ParseInt text with Some z => [EInt z] | None => [] end
  | KFloat => if floatOK text then [EFloat text] else []
  | KBool => match ParseBool text with Some b => [EBool b] | None => [] end
  | KUintN => match ParseUint text with Some z => [EInt z] | None => [] end
  | KOther => []
  end.

(** type.go:66-123: one value spec. *)
Definition enum_spec (floatOK : string -> bool) (k : bkind) (name : string) (v : vspec) : list enumval :=
  match vs_type v with
  | TxIdent i =>
      if String.eqb i name
      then flat_map (fun e => match e with VLit t => enum_value floatOK k t | VOther => [] end)
                    (vs_values v)
      else []
  | _ => []
  end.

(** type.go:53-127 *)
Definition enum_values (floatOK : string -> bool) (k : bkind) (name : string)
  (files : list (list decl)) : list enumval :=
  flat_map (fun file =>
    flat_map (fun d => match d with
                       | DGen true specs => flat_map (enum_spec floatOK k name) specs
                       | _ => []
                       end) file) files.

(** ** Go types *)

(** What PackageNode.ASTAtPos (packageNode.go:167-199) finds at a position: an ast.Field with its
    names and the text of its comment, or another node. *)
Inductive astnode := NField (names : list string) (doc : string) | NOther.

(** A struct field (types.Var and its tag). [gf_at p] is what ASTAtPos answers when asked, in the
    package with path [p], for the field's position; the file sets behind it are not modelled, so
    the answer is arbitrary. *)
Record gfield (T : Type) := mkGF {
  gf_name : string; gf_exported : bool; gf_embedded : bool; gf_tag : string; gf_type : T;
  gf_at : string -> option astnode }.
Arguments mkGF {T}. Arguments gf_name {T}. Arguments gf_exported {T}. Arguments gf_embedded {T}.
Arguments gf_tag {T}. Arguments gf_type {T}. Arguments gf_at {T}.

(** types.Type.  A named type (or an instance of a generic one) is an identity, looked up in the
    environment; channels, functions, tuples and type parameters are [GOther]. *)
Inductive gtype :=
| GBasic (name : string) (kind : bkind)
| GNamed (id : nat)
| GPointer (e : gtype)
| GSlice (e : gtype)
| GArray (len : Z) (e : gtype)
| GMap (k e : gtype)
| GStruct (fields : list (gfield gtype))
| GInterface
| GOther.

(** The loaded program: for each named type the package of its object (none for universe types
    such as error), its name, its underlying type and the comment populateTypeDocMap found for it
    (packageNode.go:202-244, the empty string if none); which packages go/packages loads without
    errors; the declarations of each package; what ParseFloat accepts. *)
Record TypeEnv := mkTE {
  te_pkg : nat -> option string; te_name : nat -> string; te_under : nat -> gtype;
  te_doc : nat -> string; te_loads : string -> bool; te_decls : string -> list (list decl);
  te_floatOK : string -> bool }.

(** astTraversal/result.go:3-52.  *PackageNode is its path (C51), nil is [None]. Names and
    ConstantValue are not set here. StructFields is an association list in declaration order; the
    names of the fields of a Go struct differ. *)
Inductive Result := mkRes {
  q_type : string; q_package : option string; q_name : string; q_isEmbedded : bool;
  q_enum : list enumval; q_mapKeyPackage : option string; q_mapKeyType : string;
  q_mapValueType : string; q_sliceType : string; q_arrayType : string; q_arrayLength : Z;
  q_structFields : list (string * Result); q_bindingTags : BindingTagMap;
  q_validationTags : list (string * bool); q_doc : string }.

(** Result{Type: t, Package: p} *)
Definition res (t : string) (p : option string) : Result :=
  mkRes t p "" false [] None "" "" "" "" 0 [] [] [] "".

(** result.Name = n. *)
Definition res_with_name (n : string) (r : Result) : Result :=
  mkRes (q_type r) (q_package r) n (q_isEmbedded r) (q_enum r) (q_mapKeyPackage r) (q_mapKeyType r)
        (q_mapValueType r) (q_sliceType r) (q_arrayType r) (q_arrayLength r) (q_structFields r)
        (q_bindingTags r) (q_validationTags r) (q_doc r).
(** result.Doc = d. *)
Definition res_with_doc (d : string) (r : Result) : Result :=
  mkRes (q_type r) (q_package r) (q_name r) (q_isEmbedded r) (q_enum r) (q_mapKeyPackage r)
        (q_mapKeyType r) (q_mapValueType r) (q_sliceType r) (q_arrayType r) (q_arrayLength r)
        (q_structFields r) (q_bindingTags r) (q_validationTags r) d.
(** result.EnumValues = e. *)
Definition res_with_enum (e : list enumval) (r : Result) : Result :=
  mkRes (q_type r) (q_package r) (q_name r) (q_isEmbedded r) e (q_mapKeyPackage r)
        (q_mapKeyType r) (q_mapValueType r) (q_sliceType r) (q_arrayType r) (q_arrayLength r)
        (q_structFields r) (q_bindingTags r) (q_validationTags r) (q_doc r).
(** type.go:242-244 *)
Definition res_with_tags (emb : bool) (b : BindingTagMap) (v : list (string * bool)) (r : Result) : Result :=
  mkRes (q_type r) (q_package r) (q_name r) emb (q_enum r) (q_mapKeyPackage r)
        (q_mapKeyType r) (q_mapValueType r) (q_sliceType r) (q_arrayType r) (q_arrayLength r)
        (q_structFields r) b v (q_doc r).

(** A computation that also calls addComponent: the results handed to it, in order, then the
    outcome.  The closure (parseFunction.go:710-719) never fails, so the calls do not influence
    the computation; the calls made before an error stay made. *)
Definition writer (A : Type) : Type := (list Result * outcome A)%type.
(** No call. *)
Definition wret {A} (o : outcome A) : writer A := ([], o).
(** One after the other. *)
Definition wbind {A B} (m : writer A) (f : A -> writer B) : writer B :=
  match snd m with
  | Ok a => ((fst m ++ fst (f a))%list, snd (f a))
  | Err e => (fst m, Err e)
  | Panic => (fst m, Panic)
  | OutOfFuel => (fst m, OutOfFuel)
  end.
Notation "x <~ m ;; f" := (wbind m (fun x => f)) (at level 61, m at next level, right associativity).

(** packageManager.go:65-93 Get on a node: nil dereference on nil. *)
Definition Get (env : TypeEnv) (p : option string) : outcome unit :=
  match p with
  | None => Panic
  | Some path => if te_loads env path then Ok tt else Err "package"
  end.

(** type.go:225-240: the comment of a field, read where ASTAtPos finds an ast.Field, which must
    have a name (field.Names[0]). *)
Definition field_doc (f : gfield gtype) (r : Result) : outcome Result :=
  match q_package r with
  | None => Ok r
  | Some p =>
      match gf_at f p with
      | Some (NField [] _) => Panic
      | Some (NField (_ :: _) doc) => Ok (res_with_doc (FormatDoc doc) r)
      | _ => Ok r
      end
  end.

(** type.go:206-247: one field, [analyse] being the recursive call. *)
Definition struct_field (env : TypeEnv) (analyse : gtype -> writer Result) (f : gfield gtype)
  : writer (string * Result) :=
  r <~ analyse (gf_type f) ;;
  _ <~ wret (match q_package r with None => Ok tt | p => Get env p end) ;;
  r <~ wret (field_doc f r) ;;
  let tags := ParseStructTag (gf_name f) (gf_tag f) in
  wret (Ok (gf_name f, res_with_tags (gf_embedded f) (fst tags) (snd tags) r)).

(** type.go:206-247: the fields in order. *)
Fixpoint struct_fields (env : TypeEnv) (analyse : gtype -> writer Result) (l : list (gfield gtype))
  : writer (list (string * Result)) :=
  match l with
  | [] => wret (Ok [])
  | f :: rest =>
      if gf_exported f
      then (kv <~ struct_field env analyse f ;;
            kvs <~ struct_fields env analyse rest ;;
            wret (Ok (kv :: kvs)))
      else struct_fields env analyse rest
  end.

(** type.go:261-269: the end of Result. *)
Definition finish (name : string) (r : Result) : outcome Result :=
  let r := if String.eqb name "" then r else res_with_name name r in
  if String.eqb (q_type r) "" then Err "invalid node type" else Ok r.

(** type.go:33-270.  [pkg] and [name] are the traverser's Package and name; [shouldAdd] is
    shouldAddComponent.  Doc (type.go:272-288) succeeds where it is called, the package having just
    been loaded. *)
Fixpoint TypeResult (fuel : nat) (env : TypeEnv) (shouldAdd : bool) (pkg : option string)
  (name : string) (t : gtype) : writer Result :=
  match fuel with
  | O => wret OutOfFuel
  | S n =>
      match t with
      | GBasic b k =>
          r <~ wret (if String.eqb name "" then Ok (res b pkg)
                     else _ <- Get env pkg ;;
                          match pkg with
                          | None => Panic
                          | Some p => Ok (res_with_enum (enum_values (te_floatOK env) k name (te_decls env p))
                                                        (res b pkg))
                          end) ;;
          wret (finish name r)
      | GNamed id =>
          _ <~ match te_pkg env id with
               | None => wret (Ok tt)
               | Some p =>
                   _ <~ wret (Get env (Some p)) ;;
                   if shouldAdd
                   then (u <~ TypeResult n env shouldAdd (Some p) (te_name env id) (te_under env id) ;;
                         ([res_with_doc (FormatDoc (te_doc env id)) u], Ok tt))
                   else wret (Ok tt)
               end ;;
          wret (finish name (res (te_name env id) (te_pkg env id)))
      | GPointer e => TypeResult n env shouldAdd pkg "" e
      | GSlice e =>
          r <~ TypeResult n env shouldAdd pkg "" e ;;
          wret (finish name (mkRes "slice" (q_package r) "" false [] None "" "" (q_type r) "" 0 [] [] [] ""))
      | GArray len e =>
          r <~ TypeResult n env shouldAdd pkg "" e ;;
          wret (finish name (mkRes "array" (q_package r) "" false [] None "" "" "" (q_type r) len [] [] [] ""))
      | GMap k e =>
          kr <~ TypeResult n env shouldAdd pkg "" k ;;
          r <~ TypeResult n env shouldAdd pkg "" e ;;
          wret (finish name (mkRes "map" (q_package r) "" false [] (q_package kr) (q_type kr) (q_type r)
                                   "" "" 0 [] [] [] ""))
      | GStruct fields =>
          fs <~ struct_fields env (TypeResult n env shouldAdd pkg "") fields ;;
          wret (finish name (mkRes "struct" pkg "" false [] None "" "" "" "" 0 fs [] [] ""))
      | GInterface => wret (finish name (res "any" pkg))
      | GOther => wret (finish name (res "" None))
      end
  end.

(** ** utils.go *)

(** PackageNode.Path (packageNode.go:24-42) *)
Definition Path (p : option string) : string := match p with Some s => s | None => "" end.

(** utils.go:35-38: when the package path is recorded. *)
Definition needs_package (r : Result) : bool :=
  negb (IsAcceptedType (q_type r)) || negb (String.eqb (q_name r) "")
  || (negb (String.eqb (q_sliceType r) "") && negb (IsAcceptedType (q_sliceType r)))
  || (negb (String.eqb (q_arrayType r) "") && negb (IsAcceptedType (q_arrayType r)))
  || (negb (String.eqb (q_mapValueType r) "") && negb (IsAcceptedType (q_mapValueType r))).

(** utils.go:10-57 *)
Fixpoint ParseResultToField (r : Result) : Field :=
  mkField (if needs_package r then Path (q_package r) else "")
          (q_type r) (q_name r) (q_enum r) false (q_isEmbedded r) (q_sliceType r) (q_arrayType r)
          (q_arrayLength r)
          (if negb (String.eqb (q_mapKeyType r) "") && negb (IsAcceptedType (q_mapKeyType r))
           then Path (q_mapKeyPackage r) else "")
          (q_mapKeyType r) (q_mapValueType r)
          (map (fun kv => (fst kv, ParseResultToField (snd kv))) (q_structFields r))
          (q_bindingTags r) (q_validationTags r)
          (if String.eqb (q_doc r) "" then "" else TrimSpace (q_doc r)).

(** inputs/gin/parseFunction.go:710-719 *)
Definition addComponent (components : list Field) (r : Result) : list Field :=
  let field := ParseResultToField r in
  if String.eqb (f_package field) "" then components else AddComponent components [field].

(** The components after an analysis: the closure called on each result in turn. *)
Definition register (components : list Field) (calls : list Result) : list Field :=
  fold_left addComponent calls components.
