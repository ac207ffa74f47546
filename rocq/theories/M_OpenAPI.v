(** outputs/openapi: components.go, schema.go, the document part of generate.go; formatTypes.go. *)
From Coq Require Import List String Ascii Bool ZArith Arith.
From Coq Require DecimalString DecimalZ.
From Verif Require Import BaseStr BaseMap M_Types M_Paths M_Tags.
Import ListNotations.
Local Open Scope string_scope.

(** strconv.Itoa and the %d verb. *)
Definition itoa (z : Z) : string := DecimalString.NilEmpty.string_of_int (Z.to_int z).

(** ** formatTypes.go *)

(** formatTypes.go:6-9 *)
Record TypeFormat := mkTF { tf_type : string; tf_format : string }.

(** formatTypes.go:13-107 *)
Definition PredefinedTypeMap : list (string * TypeFormat) :=
  [("string", mkTF "string" ""); ("int", mkTF "integer" "int32"); ("int8", mkTF "integer" "int8");
   ("int16", mkTF "integer" "int16"); ("int32", mkTF "integer" "int32");
   ("int64", mkTF "integer" "int64"); ("uint", mkTF "integer" "uint");
   ("uint8", mkTF "integer" "uint8"); ("uint16", mkTF "integer" "uint16");
   ("uint32", mkTF "integer" "uint32"); ("uint64", mkTF "integer" "uint64");
   ("float32", mkTF "number" "float32"); ("float64", mkTF "number" "float64");
   ("bool", mkTF "boolean" ""); ("byte", mkTF "string" "byte"); ("rune", mkTF "string" "rune");
   ("struct", mkTF "object" ""); ("map", mkTF "object" ""); ("slice", mkTF "array" "");
   ("any", mkTF "" ""); ("nil", mkTF "" "");
   ("time.Time", mkTF "string" "date-time"); ("github.com/google/uuid.UUID", mkTF "string" "uuid");
   ("file", mkTF "string" "binary")].

(** maps.Copy on maps that are only looked up: the entries of [src] hide those of [dst]. *)
Definition maps_copy (dst src : list (string * TypeFormat)) : list (string * TypeFormat) := (src ++ dst)%list.

(** formatTypes.go:129-143.  [memo] is s.fullTypeMapping; the answer and the new memo. *)
Definition GetTypeMapping (custom : list (string * TypeFormat)) (memo : option (list (string * TypeFormat)))
  (key pkg : string) : option TypeFormat * option (list (string * TypeFormat)) :=
  let full := match memo with
              | Some m => m
              | None => maps_copy (maps_copy [] PredefinedTypeMap) custom
              end in
  let key' := if negb (IsAcceptedType key) then pkg ++ "." ++ key else key in
  (mlookup key' full, Some full).

(** The custom mapping and the memo of a service over time.  formatTypes.go:110-126:
    both options assign into CustomTypeMapping; the newest assignment comes first here. *)
Inductive mapping_op := GiveMapping (key : string) (tf : TypeFormat) | AskMapping (key pkg : string).
(** The answers to the questions, in order (formatTypes.go:129-143 for each). *)
Fixpoint runMappings (custom : list (string * TypeFormat)) (memo : option (list (string * TypeFormat)))
  (ops : list mapping_op) : list (option TypeFormat) :=
  match ops with
  | [] => []
  | GiveMapping k tf :: r => runMappings ((k, tf) :: custom) memo r
  | AskMapping k p :: r =>
      let (a, memo') := GetTypeMapping custom memo k p in a :: runMappings custom memo' r
  end.

(** What GetTypeMapping answers in a generation run of a service whose memo was built from its
    custom mapping or is not built yet; [P_OpenAPI.get_type_mapping_any] relates the two. *)
Definition typeMapping (custom : list (string * TypeFormat)) (key pkg : string) : option TypeFormat :=
  fst (GetTypeMapping custom None key pkg).

(** ** outputs/openapi/types.go: the fields of Schema that the code sets (lines 167-196).
    A nil and an empty slice or map are the same here: both are left out of the document
    (omitempty), and the only DeepEqual (generate.go:202) sees schemas without properties. *)
Inductive Schema := mkSchema {
  s_ref : string; s_type : string; s_format : string; s_maxLength : Z; s_enum : list enumval;
  s_allOf : list Schema; s_items : option Schema; s_props : list (string * Schema);
  s_addl : option Schema; s_desc : string }.

(** Schema{}. *)
Definition emptySchema : Schema := mkSchema "" "" "" 0 [] [] None [] None "".
(** Schema{Ref: r}. *)
Definition refSchema (r : string) : Schema := mkSchema r "" "" 0 [] [] None [] None "".
(** Schema{Type: t, Format: f}. *)
Definition typeSchema (t f : string) : Schema := mkSchema "" t f 0 [] [] None [] None "".
(** Schema{Type: array, Items, MaxLength}. *)
Definition arraySchema (items : Schema) (maxLength : Z) : Schema :=
  mkSchema "" "array" "" maxLength [] [] (Some items) [] None "".
(** Schema{Type: object, AdditionalProperties}. *)
Definition mapSchema (addl : Schema) : Schema := mkSchema "" "object" "" 0 [] [] None [] (Some addl) "".
(** Schema{Type: object, Properties}. *)
Definition objectSchema (props : list (string * Schema)) : Schema :=
  mkSchema "" "object" "" 0 [] [] None props None "".
(** schema.Enum = e. *)
Definition set_enum (e : list enumval) (s : Schema) : Schema :=
  mkSchema (s_ref s) (s_type s) (s_format s) (s_maxLength s) e (s_allOf s) (s_items s) (s_props s) (s_addl s) (s_desc s).
(** schema.Items = i. *)
Definition set_items (i : Schema) (s : Schema) : Schema :=
  mkSchema (s_ref s) (s_type s) (s_format s) (s_maxLength s) (s_enum s) (s_allOf s) (Some i) (s_props s) (s_addl s) (s_desc s).
(** schema.AdditionalProperties = a. *)
Definition set_addl (a : Schema) (s : Schema) : Schema :=
  mkSchema (s_ref s) (s_type s) (s_format s) (s_maxLength s) (s_enum s) (s_allOf s) (s_items s) (s_props s) (Some a) (s_desc s).
(** schema.Description = d. *)
Definition set_desc (d : string) (s : Schema) : Schema :=
  mkSchema (s_ref s) (s_type s) (s_format s) (s_maxLength s) (s_enum s) (s_allOf s) (s_items s) (s_props s) (s_addl s) d.

(** outputs/openapi/types.go:83-94 *)
Record OParam := mkParameter {
  pa_name : string; pa_in : string; pa_required : bool; pa_style : string; pa_explode : bool;
  pa_schema : Schema }.

(** ** Iteration orders.  Go may visit a map in any order, and a different one each time; the
    model takes the order of each range statement from here.  The first argument names the range
    statement's execution.  [o_sort] is sort.Slice: any sorting, stable or not. *)
Record Orders := mkOrders {
  o_groups : list (string * list Field) -> list (string * list Field);
  o_fields : list string -> forall A : Type, list A -> list A;
  o_tags : list string -> BindingTagMap -> BindingTagMap;
  o_props : list string -> list (string * Schema) -> list (string * Schema);
  o_sort : list string -> list OParam -> list OParam }.

(** The struct fields of a component as one execution of ExtractBindingTags meets them. *)
Definition with_tags (t : BindingTagMap) (f : Field) : Field :=
  mkField (f_package f) (f_type f) (f_name f) (f_enum f) (f_isRequired f) (f_isEmbedded f)
    (f_sliceType f) (f_arrayType f) (f_arrayLength f) (f_mapKeyPackage f) (f_mapKeyType f)
    (f_mapValueType f) (f_structFields f) t (f_validationTags f) (f_doc f).
(** Fields and tags in the order of this execution, as range over a map gives them. *)
Definition met (o : Orders) (site : list string) (fields : list (string * Field)) : list (string * Field) :=
  map (fun kf => (fst kf, with_tags (o_tags o (fst kf :: site) (f_bindingTags (snd kf))) (snd kf)))
      (o_fields o site _ fields).

(** ** components.go: names *)

(** outputs/openapi/components.go:15-25 *)
Definition collisionSafeKey (bindingType name pkg : string) : string :=
  if negb (String.eqb bindingType NoBindingTag) then join "." [pkg; bindingType; name]
  else join "." [pkg; name].

(** outputs/openapi/components.go:28-30: what follows the last slash. *)
Definition getPackageName (pkg : string) : string := after_last "/" pkg.

(** outputs/openapi/components.go:37-48.  The map's entries in order of first occurrence; its
    iteration order is [o_groups]. *)
Fixpoint addToGroup (packageName : string) (c : Field) (groups : list (string * list Field))
  : list (string * list Field) :=
  match groups with
  | [] => [(packageName, [c])]
  | (n, cs) :: r =>
      if String.eqb n packageName then (n, (cs ++ [c])%list) :: r
      else (n, cs) :: addToGroup packageName c r
  end.
(** outputs/openapi/components.go:37-48: the loop. *)
Definition groupComponents (components : list Field) : list (string * list Field) :=
  fold_left (fun g c => addToGroup (getPackageName (f_package c)) c g) components [].

(** outputs/openapi/components.go:66-72: the first position where two reversed paths differ. *)
Fixpoint firstDiff (k : nat) (a b : list string) : option nat :=
  match a, b with
  | x :: a', y :: b' => if negb (String.eqb x y) then Some k else firstDiff (S k) a' b'
  | _, _ => None
  end.

(** outputs/openapi/components.go:54-75: the loop over j, which leaves at the first component
    with another package.  [cands] are the components j = i+1 .. len-i-1. *)
Fixpoint diffLoop (pi : string) (cands : list Field) (sameUntil : nat) : nat :=
  match cands with
  | [] => sameUntil
  | cj :: r =>
      if negb (String.eqb pi (f_package cj)) then
        match firstDiff 0 (rev (split "/" pi)) (rev (split "/" (f_package cj))) with
        | Some k => k
        | None => sameUntil
        end
      else diffLoop pi r sameUntil
  end.

(** outputs/openapi/components.go:52-76.  [i] counts up, [n] is the number of components; j runs
    from i+1 while j < n-i. *)
Fixpoint sameUntilFrom (n i : nat) (rest : list Field) (sameUntil : nat) : nat :=
  match rest with
  | [] => sameUntil
  | ci :: r =>
      let cands := firstn (n - i - (i + 1)) r in
      sameUntilFrom n (S i) r (diffLoop (f_package ci) cands sameUntil)
  end.
(** The outer loop stops before the last component, for which there is no j anyway. *)
Definition sameUntilOf (components : list Field) : nat :=
  sameUntilFrom (List.length components) 0 components 0.

(** outputs/openapi/components.go:82-109: the name, given the verdict on bindings.  The slice
    expression of line 92 panics if the path has at most sameUntil parts. *)
Definition safeName (sameUntil : nat) (uniqueBindings : bool) (bindingType : string) (c : Field) : outcome string :=
  let suffix := if uniqueBindings then "." ++ bindingType ++ "." ++ f_name c else "." ++ f_name c in
  if Nat.ltb 0 sameUntil then
    let parts := split "/" (f_package c) in
    if Nat.leb (sameUntil + 1) (List.length parts)
    then Ok (join "." (skipn (List.length parts - (sameUntil + 1)) parts) ++ suffix)
    else Panic
  else Ok (getPackageName (f_package c) ++ suffix).

(** outputs/openapi/components.go:81-110: the names of one component. *)
Fixpoint addNames (sameUntil : nat) (uniq : bool) (c : Field) (tags : list string) (names : list (string * string))
  : outcome (list (string * string)) :=
  match tags with
  | [] => Ok names
  | t :: r =>
      n <- safeName sameUntil uniq t c ;;
      addNames sameUntil uniq c r (minsert (collisionSafeKey t (f_name c) (f_package c)) n names)
  end.

(** outputs/openapi/components.go:79-111 *)
Fixpoint nameGroup (o : Orders) (sameUntil : nat) (cs : list Field) (names : list (string * string))
  : outcome (list (string * string)) :=
  match cs with
  | [] => Ok names
  | c :: r =>
      let (tags, uniq) := ExtractBindingTags (met o ["names"; f_package c; f_name c] (f_structFields c)) in
      names' <- addNames sameUntil uniq c tags names ;;
      nameGroup o sameUntil r names'
  end.

(** outputs/openapi/components.go:50-112 *)
Fixpoint nameGroups (o : Orders) (groups : list (string * list Field)) (names : list (string * string))
  : outcome (list (string * string)) :=
  match groups with
  | [] => Ok names
  | (_, cs) :: r =>
      names' <- nameGroup o (sameUntilOf cs) cs names ;;
      nameGroups o r names'
  end.

(** outputs/openapi/components.go:35-113.  [names] is the package variable collisionSafeNames
    (line 12), which outlives the call. *)
Definition makeCollisionSafeNames (o : Orders) (components : list Field) (names : list (string * string))
  : outcome (list (string * string)) :=
  nameGroups o (o_groups o (groupComponents components)) names.

(** outputs/openapi/components.go:126-133 *)
Definition makeComponentRefName (names : list (string * string)) (bindingType name pkg : string) : option string :=
  match mlookup (collisionSafeKey bindingType name pkg) names with
  | Some n => Some n
  | None => mlookup (collisionSafeKey NoBindingTag name pkg) names
  end.

(** outputs/openapi/components.go:116-123 *)
Definition makeComponentRef (names : list (string * string)) (bindingType name pkg : string) : option string :=
  match makeComponentRefName names bindingType name pkg with
  | Some n => Some ("#/components/schemas/" ++ n)
  | None => None
  end.

(** ** schema.go *)

(** outputs/openapi/schema.go:104-116 *)
Definition mapPredefinedTypeFormat (acceptedType : string) : Schema :=
  match mlookup acceptedType PredefinedTypeMap with
  | Some tf => if String.eqb (tf_type tf) "" then emptySchema else typeSchema (tf_type tf) (tf_format tf)
  | None => emptySchema
  end.

(** outputs/openapi/schema.go:88-100 *)
Definition mapTypeFormat (tm : string -> string -> option TypeFormat) (acceptedType pkg : string) : Schema :=
  match tm acceptedType pkg with
  | Some tf => if String.eqb (tf_type tf) "" then emptySchema else typeSchema (tf_type tf) (tf_format tf)
  | None => emptySchema
  end.

(** outputs/openapi/schema.go:44-84 *)
Definition mapFieldToSchema (names : list (string * string)) (bindingType : string) (field : Field) : option Schema :=
  if negb (IsAcceptedType (f_type field)) then
    match makeComponentRef names bindingType (f_type field) (f_package field) with
    | Some r => Some (refSchema r)
    | None => None
    end
  else
    let schema := mapPredefinedTypeFormat (f_type field) in
    if String.eqb (f_type field) "slice" then
      let item := typeSchema (s_type (mapPredefinedTypeFormat (f_sliceType field))) "" in
      let item' :=
        if negb (IsAcceptedType (f_sliceType field)) then
          match makeComponentRef names bindingType (f_sliceType field) (f_package field) with
          | Some r => refSchema r
          | None => item
          end
        else item in
      Some (set_items item' schema)
    else if String.eqb (f_type field) "map" then
      let addl :=
        if negb (IsAcceptedType (f_mapValueType field)) then
          match makeComponentRef names bindingType (f_mapValueType field) (f_package field) with
          | Some r => refSchema r
          | None => emptySchema
          end
        else mapPredefinedTypeFormat (f_mapValueType field) in
      Some (set_addl addl schema)
    else Some schema.

(** outputs/openapi/schema.go:8-42 *)
Definition mapParamToSchema (names : list (string * string)) (bindingType : string) (param : Param) : option Schema :=
  let t := f_type (p_field param) in
  let pkg := f_package (p_field param) in
  if p_isBound param then mapFieldToSchema names bindingType (p_field param)
  else if p_isArray param then
    let item := mapPredefinedTypeFormat t in
    let item' :=
      if negb (IsAcceptedType t) then
        match makeComponentRef names bindingType t pkg with Some r => refSchema r | None => item end
      else item in
    Some (arraySchema item' 0)
  else if p_isMap param then
    let addl :=
      if negb (IsAcceptedType t) then
        match makeComponentRef names bindingType t pkg with Some r => refSchema r | None => emptySchema end
      else mapPredefinedTypeFormat t in
    Some (mapSchema addl)
  else Some (mapPredefinedTypeFormat t).

(** outputs/openapi/schema.go:119-127 *)
Definition getQueryParamStyle (schema : Schema) : string * bool :=
  if String.eqb (s_type schema) "object" then ("deepObject", true) else ("form", false).

(** outputs/openapi/schema.go:130-138 *)
Definition findComponentByPackageAndType (fields : list Field) (pkg typeName : string) : option Field :=
  find (fun f => String.eqb (f_package f) pkg && String.eqb (f_name f) typeName) fields.

(** ** components.go: schemas *)

(** outputs/openapi/components.go:161-168: the binding used for a field, if any. *)
Definition fieldBindingOf (bindingType : string) (f : Field) : option BindingTag :=
  let fieldBinding := bt_get bindingType (f_bindingTags f) in
  let fieldNoBinding := bt_get NoBindingTag (f_bindingTags f) in
  if bt_eqb fieldBinding bt_zero && bt_eqb fieldNoBinding bt_zero then None
  else if bt_eqb fieldBinding bt_zero then Some fieldNoBinding
  else Some fieldBinding.

(** outputs/openapi/components.go:147-176: the loop over the fields in iteration order.  Each
    entry carries the schema of the field (line 171), computed beforehand. *)
Fixpoint structLoop (names : list (string * string)) (bindingType : string)
  (entries : list (Field * option Schema)) (props : list (string * Schema)) (embedded : list Schema)
  : option (list (string * Schema) * list Schema) :=
  match entries with
  | [] => Some (props, embedded)
  | (field, fieldSchema) :: r =>
      if f_isEmbedded field then
        match makeComponentRef names bindingType (f_type field) (f_package field) with
        | Some ref => structLoop names bindingType r props (embedded ++ [refSchema ref])%list
        | None => structLoop names bindingType r props embedded
        end
      else
        match fieldBindingOf bindingType field with
        | None => None
        | Some b =>
            if negb (bt_notShown b) then
              match fieldSchema with
              | Some s => structLoop names bindingType r (minsert (bt_name b) s props) embedded
              | None => structLoop names bindingType r props embedded
              end
            else structLoop names bindingType r props embedded
        end
  end.

(** outputs/openapi/components.go:192-199 and its two copies: the schema of an element type. *)
Definition elementSchema (names : list (string * string)) (bindingType elem pkg : string) : Schema :=
  let item := mapPredefinedTypeFormat elem in
  if String.eqb (s_type item) "" && negb (IsAcceptedType elem) then
    match makeComponentRef names bindingType elem pkg with Some r => refSchema r | None => item end
  else item.

(** outputs/openapi/components.go:178-188 *)
Definition finishStruct (r : option (list (string * Schema) * list Schema)) : option Schema :=
  match r with
  | None => None
  | Some (props, []) => Some (objectSchema props)
  | Some ([], embedded) => Some (mkSchema "" "object" "" 0 [] embedded None [] None "")
  | Some (props, embedded) =>
      Some (mkSchema "" "object" "" 0 []
              (embedded ++ [mkSchema "" "" "" 0 [] [] None props None ""])%list None [] None "")
  end.

(** outputs/openapi/components.go:136-251.  [None] is "not bound".  The schemas of nested fields
    are computed before the loop instead of inside it; they are pure, so this is the same.
    The additionalProperties schema of a map keeps its other fields when the reference is set
    (line 228); they are empty there. *)
Fixpoint componentToSchema (tm : string -> string -> option TypeFormat) (o : Orders)
  (names : list (string * string)) (bindingType : string) (site : list string) (component : Field)
  {struct component} : option Schema :=
  match component with
  | mkField pkg typ name enum _ _ sliceT arrayT arrayL _ _ mapV sf _ _ _ =>
      match tm name pkg with
      | Some _ => Some (mapTypeFormat tm name pkg)
      | None =>
          if String.eqb typ "struct" then
            let entries :=
              (fix go (l : list (string * Field)) : list (Field * option Schema) :=
                 match l with
                 | [] => []
                 | kf :: r =>
                     (snd kf, componentToSchema tm o names bindingType (fst kf :: site) (snd kf)) :: go r
                 end) sf in
            finishStruct (structLoop names bindingType (o_fields o site _ entries) [] [])
          else if String.eqb typ "slice" then
            Some (arraySchema (elementSchema names bindingType sliceT pkg) 0)
          else if String.eqb typ "array" then
            Some (arraySchema (elementSchema names bindingType arrayT pkg) arrayL)
          else if String.eqb typ "map" then
            Some (mapSchema (elementSchema names bindingType mapV pkg))
          else
            let schema := mapPredefinedTypeFormat typ in
            if String.eqb (s_type schema) "" && negb (IsAcceptedType typ) then
              match makeComponentRef names bindingType typ pkg with
              | Some r => Some (refSchema r)
              | None => Some schema
              end
            else Some (set_enum enum schema)
      end
  end.

(** ** generate.go: the document *)

(** outputs/openapi/types.go:117-124 (Header), the fields that are set. *)
Record Header := mkHeader { h_schema : Schema; h_required : bool }.
(** outputs/openapi/types.go:105-108, 130-135 (MediaType and Response; Encoding and Links are never set). *)
Record Response := mkResponse {
  resp_headers : list (string * Header); resp_content : list (string * Schema) }.
(** outputs/openapi/types.go:66-80, 97-102 (Operation and RequestBody), the fields that are set. *)
Record Operation := mkOperation {
  op_description : string; op_id : string; op_parameters : list OParam;
  op_requestBody : option (list (string * Schema)); op_responses : list (string * Response) }.
(** outputs/openapi/types.go:49-63, the operations. *)
Record PathItem := mkPath {
  pi_get : option Operation; pi_put : option Operation; pi_post : option Operation;
  pi_delete : option Operation; pi_options : option Operation; pi_head : option Operation;
  pi_patch : option Operation; pi_trace : option Operation }.
(** Path{}. *)
Definition emptyPath : PathItem := mkPath None None None None None None None None.

(** config.go:5-28 *)
Record Config := mkConfig {
  c_title : string; c_description : string; c_version : string;
  c_contact : string * string * string; c_license : string * string;
  c_secure : bool; c_host : string; c_basePath : string; c_port : Z }.

(** outputs/openapi/types.go:4-42, the parts that are set. *)
Record Document := mkDoc {
  d_title : string; d_description : string; d_version : string;
  d_contact : string * string * string; d_license : string * string;
  d_servers : list string; d_paths : list (string * PathItem); d_schemas : list (string * Schema) }.

Section Generate.
  Context (tm : string -> string -> option TypeFormat) (o : Orders)
          (names : list (string * string)) (components : list Field).

  (** outputs/openapi/generate.go:58-71 and 73-88 *)
  Definition simpleParams (bindingType place : string) (params : list Param) : list OParam :=
    flat_map (fun p => match mapParamToSchema names bindingType p with
                       | None => []
                       | Some s => [mkParameter (p_name p) place (p_isRequired p) "" false s]
                       end) params.

  (** outputs/openapi/generate.go:90-137, one query parameter. *)
  Definition queryParam (site : list string) (p : Param) : list OParam :=
    match mapParamToSchema names FormBindingTag p with
    | None => []
    | Some schema =>
        if p_isBound p then
          match findComponentByPackageAndType components (f_package (p_field p)) (f_type (p_field p)) with
          | None => []
          | Some field =>
              match componentToSchema tm o names FormBindingTag site field with
              | None => []
              | Some component =>
                  map (fun np => let (style, explode) := getQueryParamStyle (snd np) in
                                 mkParameter (fst np) "query" (p_isRequired p) style explode (snd np))
                      (o_props o site (s_props component))
              end
          end
        else let (style, explode) := getQueryParamStyle schema in
             [mkParameter (p_name p) "query" (p_isRequired p) style explode schema]
    end.

  Fixpoint queryParams (site : list string) (i : nat) (params : list Param) : list OParam :=
    match params with
    | [] => []
    | p :: r => (queryParam (itoa (Z.of_nat i) :: site) p ++ queryParams site (S i) r)%list
    end.

  (** outputs/openapi/generate.go:139-166 *)
  Definition addBody (rb : option (list (string * Schema))) (b : BodyParam) : option (list (string * Schema)) :=
    match mapFieldToSchema names (ContentTypeToBindingTag (b_contentType b)) (b_field b) with
    | None => rb
    | Some schema =>
        let content := match rb with None => [] | Some c => c end in
        let media := if negb (String.eqb (b_name b) "") then objectSchema [(b_name b, schema)] else schema in
        Some (minsert (b_contentType b) media content)
    end.

  (** outputs/openapi/generate.go:168-181 *)
  Definition addHeader (hs : list (string * Header)) (p : Param) : list (string * Header) :=
    match mapParamToSchema names HeaderBindingTag p with
    | None => hs
    | Some s => minsert (p_name p) (mkHeader s (p_isRequired p)) hs
    end.

  (** reflect.DeepEqual(mediaType, MediaType{}) *)
  Definition schema_is_empty (s : Schema) : bool :=
    match s with
    | mkSchema ref t f ml [] [] None [] None d =>
        String.eqb ref "" && String.eqb t "" && String.eqb f "" && Z.eqb ml 0 && String.eqb d ""
    | _ => false
    end.

  (** outputs/openapi/generate.go:183-205 *)
  Definition addResponse (headers : list (string * Header)) (rs : list (string * Response)) (rt : ReturnType)
    : list (string * Response) :=
    let media := match mapFieldToSchema names (ContentTypeToBindingTag (r_contentType rt)) (r_field rt) with
                 | Some s => s
                 | None => emptySchema
                 end in
    let statusCode := itoa (r_status rt) in
    let resp := match mlookup statusCode rs with Some r => r | None => mkResponse headers [] end in
    let resp' := if negb (schema_is_empty media)
                 then mkResponse (resp_headers resp) (minsert (r_contentType rt) media (resp_content resp))
                 else resp in
    minsert statusCode resp' rs.

  (** outputs/openapi/generate.go:54-218: the operation of a route. *)
  Definition operationOf (site : list string) (r : Route) : Operation :=
    let params := (simpleParams URIBindingTag "path" (rt_pathParams r)
                   ++ simpleParams HeaderBindingTag "header" (rt_reqHeaders r)
                   ++ queryParams site 0 (rt_queryParams r))%list in
    let headers := fold_left addHeader (rt_respHeaders r) [] in
    mkOperation (rt_doc r) (rt_operationId r) (o_sort o site params)
      (fold_left addBody (rt_body r) None)
      (fold_left (addResponse headers) (rt_returns r) []).

  (** outputs/openapi/generate.go:226-241 *)
  Definition setMethod (method : string) (op : Operation) (p : PathItem) : PathItem :=
    if String.eqb method "GET" then
      mkPath (Some op) (pi_put p) (pi_post p) (pi_delete p) (pi_options p) (pi_head p) (pi_patch p) (pi_trace p)
    else if String.eqb method "POST" then
      mkPath (pi_get p) (pi_put p) (Some op) (pi_delete p) (pi_options p) (pi_head p) (pi_patch p) (pi_trace p)
    else if String.eqb method "PUT" then
      mkPath (pi_get p) (Some op) (pi_post p) (pi_delete p) (pi_options p) (pi_head p) (pi_patch p) (pi_trace p)
    else if String.eqb method "PATCH" then
      mkPath (pi_get p) (pi_put p) (pi_post p) (pi_delete p) (pi_options p) (pi_head p) (Some op) (pi_trace p)
    else if String.eqb method "DELETE" then
      mkPath (pi_get p) (pi_put p) (pi_post p) (Some op) (pi_options p) (pi_head p) (pi_patch p) (pi_trace p)
    else if String.eqb method "HEAD" then
      mkPath (pi_get p) (pi_put p) (pi_post p) (pi_delete p) (pi_options p) (Some op) (pi_patch p) (pi_trace p)
    else if String.eqb method "OPTIONS" then
      mkPath (pi_get p) (pi_put p) (pi_post p) (pi_delete p) (Some op) (pi_head p) (pi_patch p) (pi_trace p)
    else p.

  (** outputs/openapi/generate.go:43-245: one route.  The route is a copy (line 43 ranges by
      value), so the rewritten path does not reach the service. *)
  Definition addPath (paths : list (string * PathItem)) (site : list string) (r : Route) : list (string * PathItem) :=
    let path := openapi_path (rt_path r) in
    let op := operationOf site r in
    let item := match mlookup path paths with None => emptyPath | Some p => p end in
    minsert path (setMethod (rt_method r) op item) paths.

  Fixpoint addPaths (i : nat) (routes : list Route) (paths : list (string * PathItem)) : list (string * PathItem) :=
    match routes with
    | [] => paths
    | r :: rest => addPaths (S i) rest (addPath paths ["route"; itoa (Z.of_nat i)] r)
    end.

  (** outputs/openapi/generate.go:254-270, one component and binding type. *)
  Definition addSchema (schemas : list (string * Schema)) (component : Field) (bindingType : string)
    : list (string * Schema) :=
    match componentToSchema tm o names bindingType ["component"; f_package component; f_name component; bindingType] component with
    | None => schemas
    | Some schema =>
        let schema' := if negb (String.eqb (f_doc component) "") then set_desc (f_doc component) schema else schema in
        match makeComponentRefName names bindingType (f_name component) (f_package component) with
        | Some n => minsert n schema' schemas
        | None => schemas
        end
    end.

  (** outputs/openapi/generate.go:253-271 *)
  Definition addSchemas (schemas : list (string * Schema)) : list (string * Schema) :=
    fold_left (fun acc c => fold_left (fun acc' bt => addSchema acc' c bt) BindingTags acc) components schemas.
End Generate.

(** outputs/openapi/generate.go:26-295: the document, the configuration afterwards (line 275
    writes the default description into it) and the names left behind.  [custom] is the
    service's custom type mapping. *)
Definition buildDocument (o : Orders) (custom : list (string * TypeFormat)) (config : option Config)
  (routes : list Route) (components : list Field) (names0 : list (string * string))
  : outcome (Document * Config * list (string * string)) :=
  match config with
  | None => Err "config not found"
  | Some c =>
      names <- makeCollisionSafeNames o components names0 ;;
      let tm := typeMapping custom in
      let protocol := if c_secure c then "https" else "http" in
      let paths := addPaths tm o names components 0 routes [] in
      let schemas := addSchemas tm o names components [] in
      let desc := if String.eqb (c_description c) "" then "Generated by astra" else c_description c in
      let c' := mkConfig (c_title c) desc (c_version c) (c_contact c) (c_license c) (c_secure c) (c_host c) (c_basePath c) (c_port c) in
      Ok (mkDoc (c_title c) desc (c_version c) (c_contact c) (c_license c)
            [protocol ++ "://" ++ c_host c ++ ":" ++ itoa (c_port c) ++ c_basePath c] paths schemas,
          c', names)
  end.
