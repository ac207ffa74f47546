(** The service and its phases: service.go, io.go, input.go, output.go, new.go, options.go, setup.go,
    dir.go, mainPackage.go, createRoutes.go, parseRoutes.go, clean.go, generate.go, teardown.go,
    parse.go, cache.go, cache/cache.go, cli/cli.go, cli/astra/cmd, inputs/inputs.go,
    outputs/outputs.go, outputs/json, outputs/azureFunctions and the file part of outputs/openapi. *)
From Coq Require Import List String Ascii Bool ZArith Arith.
From Verif Require Import BaseStr BaseMap M_Types M_Collect M_OpenAPI M_Parse M_Clean M_FS.
Import ListNotations.
Local Open Scope string_scope.

(** ** The service *)

(** service.go:13-17 *)
Inductive CLIMode := CLIModeNone | CLIModeSetup | CLIModeBuilder.

(** The functions an input or output holds: nil, the built-in ones with what they captured, or one of the
    user's that does nothing but answer.  The captured path of a generator is a variable that the
    generator itself changes (C48). *)
Inductive createFn := CrNil | CrGin (router : option (list GinRoute)) | CrUser (answer : outcome unit).
(** The ParseRoutes of an input (input.go:7). *)
Inductive parseFn := PaNil | PaGin | PaUser (answer : outcome unit).
(** The Generate of an output (output.go:7). *)
Inductive generateFn := GeNil | GeOpenAPI (filePath : string) | GeJSON (filePath : string)
                      | GeAzure (directoryPath : string) | GeUser (answer : outcome unit).

(** io.go:10-17: a value of type any is a string or something else. *)
Inductive cfgval := VStr (s : string) | VAny.
(** io.go:13 *)
Definition IOConfigurationKeyFilePath := "filePath".
(** io.go:14 *)
Definition IOConfigurationKeyDirectoryPath := "directoryPath".

(** input.go:4-8 *)
Record Input := mkInput { in_mode : string; in_create : createFn; in_parse : parseFn }.
(** output.go:5-9 *)
Record Output := mkOutput { out_mode : string; out_generate : generateFn; out_config : list (string * cfgval) }.

(** service.go:20-47 without the logger.  [sv_memo] is fullTypeMapping: the custom mapping it was built
    from, if it has been built (formatTypes.go:129-143; see M_OpenAPI.GetTypeMapping). *)
Record Service := mkService {
  sv_inputs : list Input; sv_outputs : list Output; sv_config : option Config;
  sv_routes : list Route; sv_components : list Field;
  sv_tempMain : string; sv_workDir : string;
  sv_cacheEnabled : bool; sv_cachePath : string; sv_cliMode : CLIMode;
  sv_denyList : list (string -> bool); sv_customFuncs : list customFunc;
  sv_customTypes : list (string * TypeFormat); sv_memo : option (list (string * TypeFormat)) }.

(** Assignments to the fields of a service (service.go:20-47); here Inputs and Outputs. *)
Definition with_io (i : list Input) (o : list Output) (s : Service) : Service :=
  mkService i o (sv_config s) (sv_routes s) (sv_components s) (sv_tempMain s) (sv_workDir s)
    (sv_cacheEnabled s) (sv_cachePath s) (sv_cliMode s) (sv_denyList s) (sv_customFuncs s) (sv_customTypes s) (sv_memo s).
(** service.go:21 *)
Definition with_inputs (i : list Input) (s : Service) : Service := with_io i (sv_outputs s) s.
(** service.go:22 *)
Definition with_outputs (o : list Output) (s : Service) : Service := with_io (sv_inputs s) o s.
(** service.go:26 *)
Definition with_config (c : option Config) (s : Service) : Service :=
  mkService (sv_inputs s) (sv_outputs s) c (sv_routes s) (sv_components s) (sv_tempMain s) (sv_workDir s)
    (sv_cacheEnabled s) (sv_cachePath s) (sv_cliMode s) (sv_denyList s) (sv_customFuncs s) (sv_customTypes s) (sv_memo s).
(** service.go:28, 30 *)
Definition with_results (r : list Route) (c : list Field) (s : Service) : Service :=
  mkService (sv_inputs s) (sv_outputs s) (sv_config s) r c (sv_tempMain s) (sv_workDir s)
    (sv_cacheEnabled s) (sv_cachePath s) (sv_cliMode s) (sv_denyList s) (sv_customFuncs s) (sv_customTypes s) (sv_memo s).
(** service.go:32 *)
Definition with_tempMain (t : string) (s : Service) : Service :=
  mkService (sv_inputs s) (sv_outputs s) (sv_config s) (sv_routes s) (sv_components s) t (sv_workDir s)
    (sv_cacheEnabled s) (sv_cachePath s) (sv_cliMode s) (sv_denyList s) (sv_customFuncs s) (sv_customTypes s) (sv_memo s).
(** service.go:33 *)
Definition with_workDir (d : string) (s : Service) : Service :=
  mkService (sv_inputs s) (sv_outputs s) (sv_config s) (sv_routes s) (sv_components s) (sv_tempMain s) d
    (sv_cacheEnabled s) (sv_cachePath s) (sv_cliMode s) (sv_denyList s) (sv_customFuncs s) (sv_customTypes s) (sv_memo s).
(** service.go:35-37 *)
Definition with_cache (e : bool) (p : string) (m : CLIMode) (s : Service) : Service :=
  mkService (sv_inputs s) (sv_outputs s) (sv_config s) (sv_routes s) (sv_components s) (sv_tempMain s) (sv_workDir s)
    e p m (sv_denyList s) (sv_customFuncs s) (sv_customTypes s) (sv_memo s).
(** service.go:39 *)
Definition with_denyList (l : list (string -> bool)) (s : Service) : Service :=
  mkService (sv_inputs s) (sv_outputs s) (sv_config s) (sv_routes s) (sv_components s) (sv_tempMain s) (sv_workDir s)
    (sv_cacheEnabled s) (sv_cachePath s) (sv_cliMode s) l (sv_customFuncs s) (sv_customTypes s) (sv_memo s).
(** service.go:41 *)
Definition with_customFuncs (l : list customFunc) (s : Service) : Service :=
  mkService (sv_inputs s) (sv_outputs s) (sv_config s) (sv_routes s) (sv_components s) (sv_tempMain s) (sv_workDir s)
    (sv_cacheEnabled s) (sv_cachePath s) (sv_cliMode s) (sv_denyList s) l (sv_customTypes s) (sv_memo s).
(** service.go:44 *)
Definition with_customTypes (l : list (string * TypeFormat)) (s : Service) : Service :=
  mkService (sv_inputs s) (sv_outputs s) (sv_config s) (sv_routes s) (sv_components s) (sv_tempMain s) (sv_workDir s)
    (sv_cacheEnabled s) (sv_cachePath s) (sv_cliMode s) (sv_denyList s) (sv_customFuncs s) l (sv_memo s).
(** service.go:46 *)
Definition with_memo (m : option (list (string * TypeFormat))) (s : Service) : Service :=
  mkService (sv_inputs s) (sv_outputs s) (sv_config s) (sv_routes s) (sv_components s) (sv_tempMain s) (sv_workDir s)
    (sv_cacheEnabled s) (sv_cachePath s) (sv_cliMode s) (sv_denyList s) (sv_customFuncs s) (sv_customTypes s) m.

(** ** What the files contain *)

(** The data json.Marshal and yaml.Marshal write for a service: the fields of service.go:20-47 without a
    tag of a single dash (for YAML also those with only a json tag, which loading ignores), inputs
    and outputs without their functions. *)
Record Cached := mkCached {
  ca_inputs : list string; ca_outputs : list (string * list (string * cfgval));
  ca_config : option Config; ca_routes : list Route; ca_components : list Field;
  ca_customTypes : list (string * TypeFormat) }.

(** Files are kept as what they mean: bytes (a file of the user's, or one just created), a cache in JSON or YAML, an
    OpenAPI document in JSON or YAML, the JSON output, an Azure function. *)
Inductive content :=
| CBytes (s : string)
| CCache (yaml : bool) (c : Cached)
| CDocument (yaml : bool) (d : Document)
| CResults (routes : list Route) (components : list Field)
| CFunction (methods : list string) (route : string).

(** ** encoding/json on the cached data *)

(** A byte of a UTF-8 sequence after the first, in its range. *)
Definition is_cont (lo hi : nat) (c : ascii) : bool :=
  Nat.leb lo (nat_of_ascii c) && Nat.leb (nat_of_ascii c) hi.
(** The UTF-8 encoding of U+FFFD. *)
Definition replacement (r : string) : string :=
  String (ascii_of_nat 239) (String (ascii_of_nat 191) (String (ascii_of_nat 189) r)).
(** What a string becomes when written to JSON and read back: each byte that is not part of a valid UTF-8
    sequence becomes U+FFFD (encoding/json/encode.go appendString, unicode/utf8 DecodeRune). *)
Fixpoint json_string (s : string) : string :=
  match s with
  | EmptyString => EmptyString
  | String c r =>
      let n := nat_of_ascii c in
      if Nat.ltb n 128 then String c (json_string r)
      else if Nat.leb 194 n && Nat.leb n 223 then
        match r with
        | String d r1 => if is_cont 128 191 d then String c (String d (json_string r1)) else replacement (json_string r)
        | EmptyString => replacement EmptyString
        end
      else if Nat.leb 224 n && Nat.leb n 239 then
        match r with
        | String d (String e r2) =>
            if is_cont (if Nat.eqb n 224 then 160 else 128) (if Nat.eqb n 237 then 159 else 191) d && is_cont 128 191 e
            then String c (String d (String e (json_string r2))) else replacement (json_string r)
        | _ => replacement (json_string r)
        end
      else if Nat.leb 240 n && Nat.leb n 244 then
        match r with
        | String d (String e (String f r3)) =>
            if is_cont (if Nat.eqb n 240 then 144 else 128) (if Nat.eqb n 244 then 143 else 191) d
               && is_cont 128 191 e && is_cont 128 191 f
            then String c (String d (String e (String f (json_string r3)))) else replacement (json_string r)
        | _ => replacement (json_string r)
        end
      else replacement (json_string r)
  end.

(** The nearest float64 of an integer, ties to even: 53 significant bits. *)
Definition float_round_pos (z : Z) : Z :=
  (if z <? 2 ^ 53 then z
   else let u := 2 ^ (Z.log2 z - 52) in
        let q := z / u in
        let r := z mod u in
        if (2 * r <? u) || ((2 * r =? u) && Z.even q) then q * u else (q + 1) * u)%Z.
(** With sign. *)
Definition float_round (z : Z) : Z := if Z.ltb z 0 then (- float_round_pos (- z))%Z else float_round_pos z.

(** An element of type any: a JSON number is read back as a float64. *)
Definition json_enum (e : enumval) : enumval :=
  match e with
  | EStr s => EStr (json_string s)
  | EInt z => EFloat (itoa (float_round z))
  | EBool b => EBool b
  | EFloat t => EFloat t
  end.

(** astTraversal/tags.go:22-26 *)
Definition json_tag (kt : string * BindingTag) : string * BindingTag :=
  (json_string (fst kt), mkBT (json_string (bt_name (snd kt))) (bt_notShown (snd kt)) (bt_returnOptional (snd kt))).

(** types.go:70-94: every field has its own JSON name; omitempty leaves out zero values only.  Maps
    are written in key order and read back as maps, whose order is not observable: they stay as they are
    (that two keys may become equal is not modelled). *)
Fixpoint json_field (f : Field) : Field :=
  match f with
  | mkField pkg typ name enum req emb sliceT arrayT arrayL mkp mkt mv sf bt vt doc =>
      mkField (json_string pkg) (json_string typ) (json_string name) (map json_enum enum) req emb
        (json_string sliceT) (json_string arrayT) arrayL (json_string mkp) (json_string mkt) (json_string mv)
        (map (fun kf => (json_string (fst kf), json_field (snd kf))) sf)
        (map json_tag bt) (map (fun kv => (json_string (fst kv), snd kv)) vt) (json_string doc)
  end.
(** types.go:36-44 *)
Definition json_param (p : Param) : Param :=
  mkParam (json_string (p_name p)) (json_field (p_field p)) (p_isRequired p) (p_isArray p) (p_isMap p) (p_isBound p).
(** types.go:46-55 *)
Definition json_body (b : BodyParam) : BodyParam :=
  mkBody (json_string (b_name b)) (json_field (b_field b)) (json_string (b_contentType b)) (b_isRequired b)
    (b_isArray b) (b_isMap b) (b_isBound b).
(** types.go:27-31 *)
Definition json_return (r : ReturnType) : ReturnType :=
  mkRet (r_status r) (json_string (r_contentType r)) (json_field (r_field r)).
(** types.go:8-23 *)
Definition json_route (r : Route) : Route :=
  mkRoute (json_string (rt_handler r)) (json_string (rt_file r)) (rt_line r) (json_string (rt_method r))
    (json_string (rt_path r)) (map json_param (rt_pathParams r)) (map json_param (rt_queryParams r))
    (map json_body (rt_body r)) (map json_return (rt_returns r)) (json_string (rt_doc r))
    (json_string (rt_operationId r)) (map json_param (rt_reqHeaders r)) (map json_param (rt_respHeaders r)).
(** config.go:5-27 *)
Definition json_config (c : Config) : Config :=
  let '(cn, cu, ce) := c_contact c in
  mkConfig (json_string (c_title c)) (json_string (c_description c)) (json_string (c_version c))
    (json_string cn, json_string cu, json_string ce)
    (json_string (fst (c_license c)), json_string (snd (c_license c)))
    (c_secure c) (json_string (c_host c)) (json_string (c_basePath c)) (c_port c).
(** io.go:17: a value. *)
Definition json_cfgval (v : cfgval) : cfgval := match v with VStr s => VStr (json_string s) | VAny => VAny end.

(** What is left of the service after json.Marshal and decoding.  The type mapping's values have no
    tags; their names are matched without regard to case. *)
Definition json_service (s : Service) : Cached :=
  mkCached (map (fun i => json_string (in_mode i)) (sv_inputs s))
    (map (fun o => (json_string (out_mode o), map (fun kv => (json_string (fst kv), json_cfgval (snd kv))) (out_config o)))
         (sv_outputs s))
    (option_map json_config (sv_config s)) (map json_route (sv_routes s)) (map json_field (sv_components s))
    (map (fun kt => (json_string (fst kt), mkTF (json_string (tf_type (snd kt))) (json_string (tf_format (snd kt)))))
         (sv_customTypes s)).

(** yaml.Marshal (gopkg.in/yaml.v3) panics on a value of function type, nil or not; the functions of inputs
    and outputs have no yaml tag that would leave them out (input.go:6-7, output.go:7).  A list without
    elements has no functions. Everything else is written and read back as it was. *)
Definition yaml_service (s : Service) : outcome Cached :=
  match sv_inputs s, sv_outputs s with
  | [], [] => Ok (mkCached [] [] (sv_config s) (sv_routes s) (sv_components s) (sv_customTypes s))
  | _, _ => Panic
  end.

(** ** The world *)

(** What a run does, for C37. *)
Inductive event :=
| EvSetup | EvCreate | EvParse | EvClean | EvGenerate | EvTeardown | EvCache
| EvCreateInput (mode : string) | EvParseInput (mode : string) | EvOutput (mode : string).

(** The file tree; the current directory; the package variable collisionSafeNames of outputs/openapi; the
    number of operating system calls so far; the trees there have been, newest first; the
    phases so far, newest first. *)
Record World := mkWorld {
  w_fs : tree content; w_cwd : list string; w_names : list (string * string);
  w_clock : nat; w_past : list (tree content); w_log : list event }.

(** What a run depends on besides the service and the world. [e_fault n]: the n-th operating system call
    fails, a write leaving the given content behind.  [e_rel] is filepath.Rel (inputs/gin/createRoute.go:24).
    [e_usesMain] tells whether the analysis of these routes meets the main package, [e_analyse] is the analysis
    of the sources (M_Parse.GinParseRoutes for some program and fuel), which the temporary files
    of the service are taken not to disturb.  [e_decode] reads a cache from a file astra did not
    write.  [e_orders] are the iteration orders of the OpenAPI generator. *)
Record Env := mkEnv {
  e_fault : nat -> option content;
  e_rel : string -> string -> option string;
  e_usesMain : list customFunc -> list Route -> bool;
  e_analyse : list customFunc -> string -> list Route -> list Field -> outcome (list Route * list Field * option string);
  e_decode : bool -> string -> option Cached;
  e_orders : Orders }.

(** A step of a run: the state before to the outcome and the state after. *)
Definition act (A : Type) : Type := Service -> World -> outcome A * Service * World.
(** A step that answers only. *)
Definition aret {A} (a : A) : act A := fun s w => (Ok a, s, w).
(** A step with the given outcome. *)
Definition aoutcome {A} (o : outcome A) : act A := fun s w => (o, s, w).
(** One step after another, unless the first fails. *)
Definition abind {A B} (m : act A) (f : A -> act B) : act B :=
  fun s w => match m s w with
             | (Ok a, s', w') => f a s' w'
             | (Err e, s', w') => (Err e, s', w')
             | (Panic, s', w') => (Panic, s', w')
             | (OutOfFuel, s', w') => (OutOfFuel, s', w')
             end.
Notation "x <-- m ;;; f" := (abind m (fun x => f)) (at level 61, m at next level, right associativity).
(** The service as it is now. *)
Definition service : act Service := fun s w => (Ok s, s, w).
(** An assignment to the service. *)
Definition modify (f : Service -> Service) : act unit := fun s w => (Ok tt, f s, w).
(** An announcement to the log. *)
Definition log (e : event) : act unit := fun s w =>
  (Ok tt, s, mkWorld (w_fs w) (w_cwd w) (w_names w) (w_clock w) (w_past w) (e :: w_log w)).

(** ** Operating system calls *)

(** The tree after a call, and one more moment passed. *)
Definition tick (t : tree content) (w : World) : World :=
  mkWorld t (w_cwd w) (w_names w) (S (w_clock w)) (t :: w_past w) (w_log w).

Section Calls.
  Context (env : Env).

  (** A call that changes the tree or fails. *)
  Definition call_tree (f : list string -> tree content -> option (tree content)) (p : string) : act unit :=
    fun s w =>
      match e_fault env (w_clock w) with
      | Some _ => (Err "io", s, tick (w_fs w) w)
      | None => match f (locate (w_cwd w) p) (w_fs w) with
                | Some t => (Ok tt, s, tick t w)
                | None => (Err "fs", s, tick (w_fs w) w)
                end
      end.

  (** os.Stat: there, not there, or another error. *)
  Inductive stated := SThere | SAbsent | SError.
  Definition os_Stat (p : string) : act stated := fun s w =>
    match e_fault env (w_clock w) with
    | Some _ => (Ok SError, s, tick (w_fs w) w)
    | None =>
        let l := locate (w_cwd w) p in
        (Ok (match get l (w_fs w) with
             | Some _ => SThere
             | None => if through_file l (w_fs w) then SError else SAbsent
             end), s, tick (w_fs w) w)
    end.

  Definition os_Mkdir := call_tree mkdir.
  Definition os_MkdirAll := call_tree mkdir_all.
  (** os.RemoveAll (os/removeall_at.go:16-50) does nothing for the empty path and refuses a path ending in a
      dot element.  The root is emptied before the error.  Otherwise everything there is removed at once
      or nothing: a removal that fails halfway is not modelled, nor is a crash halfway. *)
  Definition os_RemoveAll (p : string) : act unit :=
    if String.eqb p "" then aret tt
    else if String.eqb p "." || has_suffix "/." p then aoutcome (Err "invalid argument")
    else fun s w =>
      match locate (w_cwd w) p with
      | [] => (Err "busy", s, tick (match e_fault env (w_clock w) with Some _ => w_fs w | None => Dir [] end) w)
      | _ => call_tree remove_all p s w
      end.
  Definition os_Create := call_tree (create (CBytes "")).
  Definition os_Rename (p q : string) : act unit := fun s w =>
    call_tree (fun l => rename l (locate (w_cwd w) q)) p s w.

  (** File.Write on a file just created: a failing call leaves some content behind. *)
  Definition file_Write (p : string) (c : content) : act unit := fun s w =>
    let l := locate (w_cwd w) p in
    match e_fault env (w_clock w) with
    | Some g => (Err "io", s, tick (match write l g (w_fs w) with Some t => t | None => w_fs w end) w)
    | None => match write l c (w_fs w) with
              | Some t => (Ok tt, s, tick t w)
              | None => (Err "fs", s, tick (w_fs w) w)
              end
    end.
  (** os.WriteFile *)
  Definition os_WriteFile (p : string) (c : content) : act unit :=
    _ <-- os_Create p ;;; file_Write p c.

  (** os.ReadFile, os.Open and reading *)
  Definition os_ReadFile (p : string) : act content := fun s w =>
    match e_fault env (w_clock w) with
    | Some _ => (Err "io", s, tick (w_fs w) w)
    | None => match get (locate (w_cwd w) p) (w_fs w) with
              | Some (File c) => (Ok c, s, tick (w_fs w) w)
              | _ => (Err "fs", s, tick (w_fs w) w)
              end
    end.

  (** os.ReadDir: the entries in name order, which is how a directory is kept; the empty path is no directory.  (That it
      is not the current directory is said here only: no other call gets an empty path in a service with a
      working directory.) *)
  Definition os_ReadDir (p : string) : act (list string) := fun s w =>
    match e_fault env (w_clock w) with
    | Some _ => (Err "io", s, tick (w_fs w) w)
    | None => match (if String.eqb p "" then None else get (locate (w_cwd w) p) (w_fs w)) with
              | Some (Dir es) => (Ok (map fst es), s, tick (w_fs w) w)
              | _ => (Err "fs", s, tick (w_fs w) w)
              end
    end.

  (** os.Getwd *)
  Definition os_Getwd : act string := fun s w =>
    match e_fault env (w_clock w) with
    | Some _ => (Err "io", s, tick (w_fs w) w)
    | None => (Ok ("/" ++ join "/" (w_cwd w)), s, tick (w_fs w) w)
    end.

  (** ** dir.go *)

  (** dir.go:14-19 *)
  Definition getAstraDirPath (s : Service) : string := path_Join [sv_workDir s; ".astra"].

  (** dir.go:66-83.  The file handle is not closed; that is not seen. *)
  Definition setupGitIgnore : act unit :=
    s <-- service ;;;
    let gitIgnorePath := path_Join [getAstraDirPath s; ".gitignore"] in
    st <-- os_Stat gitIgnorePath ;;;
    match st with
    | SThere => aret tt
    | _ => _ <-- os_Create gitIgnorePath ;;;
           file_Write gitIgnorePath (CBytes (String "*" (str1 (ascii_of_nat 10))))
    end.

  (** dir.go:22-32 *)
  Definition setupAstraDir : act unit :=
    s <-- service ;;;
    _ <-- os_MkdirAll (getAstraDirPath s) ;;;
    setupGitIgnore.

  (** dir.go:34-43 *)
  Definition SetupTempOutputDir (dirPath : string) : act string :=
    s <-- service ;;;
    let tempDir := path_Join [getAstraDirPath s; dirPath] in
    _ <-- os_Mkdir tempDir ;;;
    aret tempDir.

  (** dir.go:45-63 *)
  Definition MoveTempOutputDir (dirPath outputDir : string) : act unit :=
    s <-- service ;;;
    let sourcePath := path_Join [getAstraDirPath s; dirPath] in
    let destinationPath := path_Join [sv_workDir s; outputDir] in
    st <-- os_Stat destinationPath ;;;
    _ <-- match st with SAbsent => aret tt | _ => os_RemoveAll destinationPath end ;;;
    os_Rename sourcePath destinationPath.

  (** dir.go:86-92 *)
  Definition cleanupAstraDir : act unit := s <-- service ;;; os_RemoveAll (getAstraDirPath s).

  (** ** mainPackage.go *)

  Definition mainPackageReplacement := "astramain".
  Definition newline : ascii := ascii_of_nat 10.

  (** mainPackage.go:45: the text of a copied file.  A file of the user's is bytes; one that astra
      wrote and named like a Go file has no package clause. *)
  Definition copied (c : content) : content :=
    match c with
    | CBytes s => CBytes (replace_all "package main" ("package " ++ mainPackageReplacement) s)
    | _ => c
    end.

  (** mainPackage.go:59: the first line of go.mod without the first occurrence of module and a space. *)
  Definition moduleName (c : content) : string :=
    match c with
    | CBytes s => replace_first "module " "" (hd "" (split newline s))
    | _ => ""
    end.

  (** mainPackage.go:37-61 *)
  Fixpoint copyMain (workDir newMainPkgPath : string) (files : list string) (pkgName : string) : act string :=
    match files with
    | [] => aret pkgName
    | file :: rest =>
        if has_suffix ".go" file then
          fileData <-- os_ReadFile (path_Join [workDir; file]) ;;;
          _ <-- os_WriteFile (path_Join [newMainPkgPath; file]) (copied fileData) ;;;
          copyMain workDir newMainPkgPath rest pkgName
        else if has_suffix ".mod" file then
          fileData <-- os_ReadFile (path_Join [workDir; file]) ;;;
          copyMain workDir newMainPkgPath rest (moduleName fileData)
        else copyMain workDir newMainPkgPath rest pkgName
    end.

  (** mainPackage.go:17-68 *)
  Definition setupTempMainPackage : act unit :=
    s <-- service ;;;
    let newMainPkgPath := path_Join [getAstraDirPath s; mainPackageReplacement] in
    st <-- os_Stat newMainPkgPath ;;;
    _ <-- match st with SThere => os_RemoveAll newMainPkgPath | _ => aret tt end ;;;
    _ <-- os_Mkdir newMainPkgPath ;;;
    files <-- os_ReadDir (sv_workDir s) ;;;
    pkgName <-- copyMain (sv_workDir s) newMainPkgPath files "" ;;;
    modify (with_tempMain (path_Join [pkgName; ".astra/" ++ mainPackageReplacement])).

  (** mainPackage.go:71-80 *)
  Definition cleanupTempMainPackage : act unit :=
    s <-- service ;;;
    let newMainPkgPath := path_Join [getAstraDirPath s; mainPackageReplacement] in
    st <-- os_Stat newMainPkgPath ;;;
    match st with SThere => os_RemoveAll newMainPkgPath | _ => aret tt end.

  (** mainPackage.go:83-91 *)
  Definition GetMainPackageName : act string :=
    s <-- service ;;;
    _ <-- (if String.eqb (sv_tempMain s) "" then setupTempMainPackage else aret tt) ;;;
    s' <-- service ;;;
    aret (sv_tempMain s').

  (** ** cache.go *)

  (** cache.go:23-28 and its copies *)
  Definition cachePath (s : Service) : string :=
    if negb (String.eqb (sv_cachePath s) "") then sv_cachePath s
    else path_Join [getAstraDirPath s; "cache.json"].
  Definition is_yaml (p : string) : bool := has_suffix ".yaml" p || has_suffix ".yml" p.

  (** cache.go:116-136 *)
  Definition ClearCache : act unit :=
    s <-- service ;;;
    st <-- os_Stat (cachePath s) ;;;
    match st with
    | SThere => os_RemoveAll (cachePath s)
    | _ => aoutcome (Err "stat")
    end.

  (** cache.go:20-59 *)
  Definition Cache : act unit :=
    s <-- service ;;;
    st <-- os_Stat (cachePath s) ;;;
    _ <-- match st with SThere => ClearCache | _ => aret tt end ;;;
    _ <-- os_Create (cachePath s) ;;;
    c <-- (if is_yaml (cachePath s) then aoutcome (yaml_service s) else aret (json_service s)) ;;;
    file_Write (cachePath s) (CCache (is_yaml (cachePath s)) c).

  (** cache.go:94-105: reading a cache.  A cache written in the one format and renamed to the other is
      not modelled (an error here); nor is reading another output of astra as a cache. *)
  Definition decodeCache (p : string) (c : content) : outcome Cached :=
    if has_suffix ".json" p then
      match c with
      | CCache false d => Ok d
      | CBytes b => match e_decode env false b with Some d => Ok d | None => Err "json" end
      | _ => Err "json"
      end
    else if is_yaml p then
      match c with
      | CCache true d => Ok d
      | CBytes b => match e_decode env true b with Some d => Ok d | None => Err "yaml" end
      | _ => Err "yaml"
      end
    else Err "unsupported file format".

  (** cache.go:107-111; inputs and outputs come without functions. *)
  Definition loaded (d : Cached) (s : Service) : Service :=
    with_results (ca_routes d) (ca_components d)
      (with_config (ca_config d)
        (with_io (map (fun m => mkInput m CrNil PaNil) (ca_inputs d))
                 (map (fun mc => mkOutput (fst mc) GeNil (snd mc)) (ca_outputs d)) s)).

  (** cache.go:88-113 *)
  Definition LoadCacheFromCustomPath (p : string) : act unit :=
    c <-- os_ReadFile p ;;;
    d <-- aoutcome (decodeCache p c) ;;;
    modify (loaded d).

  (** cache.go:63-83 *)
  Definition LoadCache : act unit :=
    s <-- service ;;;
    st <-- os_Stat (cachePath s) ;;;
    match st with
    | SThere => LoadCacheFromCustomPath (cachePath s)
    | _ => aoutcome (Err "stat")
    end.

  (** The last lines of most phases, such as createRoutes.go:17-23. *)
  Definition cacheIfEnabled : act unit :=
    s <-- service ;;; if sv_cacheEnabled s then (_ <-- log EvCache ;;; Cache) else aret tt.

  (** ** The phases *)

  (** setup.go:12-30 *)
  Definition setupDirs : act unit :=
    _ <-- setupAstraDir ;;;
    s <-- service ;;;
    if String.eqb (sv_workDir s) ""
    then (cwd <-- os_Getwd ;;; modify (with_workDir cwd)) else aret tt.

  (** setup.go:9-42 *)
  Definition Setup : act unit :=
    _ <-- log EvSetup ;;;
    _ <-- setupDirs ;;;
    cacheIfEnabled.

  (** inputs/gin/createRoutes.go:16-50, with Getwd called for each route that is not denied
      (M_Collect.CreateRoutes with a given current directory). *)
  Fixpoint ginCreateRoutes (infos : list GinRoute) : act unit :=
    match infos with
    | [] => aret tt
    | info :: rest =>
        s <-- service ;;;
        if denied (sv_denyList s) (gi_path info) then ginCreateRoutes rest
        else
          cwd <-- os_Getwd ;;;
          routes <-- aoutcome (createRoute (e_rel env cwd) info (sv_routes s)) ;;;
          _ <-- modify (with_results routes (sv_components s)) ;;;
          ginCreateRoutes rest
    end.
  (** A nil function and a nil router panic. *)
  Definition runCreate (f : createFn) : act unit :=
    match f with
    | CrNil => aoutcome Panic
    | CrGin None => aoutcome Panic
    | CrGin (Some infos) => ginCreateRoutes infos
    | CrUser answer => aoutcome answer
    end.

  Fixpoint runCreates (l : list Input) : act unit :=
    match l with
    | [] => aret tt
    | i :: r => _ <-- log (EvCreateInput (in_mode i)) ;;; _ <-- runCreate (in_create i) ;;; runCreates r
    end.

  (** createRoutes.go:4-26 *)
  Definition ServiceCreateRoutes : act unit :=
    _ <-- log EvCreate ;;;
    s <-- service ;;;
    _ <-- runCreates (sv_inputs s) ;;;
    cacheIfEnabled.

  (** inputs/gin/parseRoutes.go:11-30.  The temporary main package is made on the first use of package
      main (inputs/gin/parseRoute.go:26-31); here before the analysis. *)
  Definition runParse (f : parseFn) : act unit :=
    match f with
    | PaNil => aoutcome Panic
    | PaGin =>
        s <-- service ;;;
        _ <-- (if e_usesMain env (sv_customFuncs s) (sv_routes s)
               then (_ <-- GetMainPackageName ;;; aret tt) else aret tt) ;;;
        s <-- service ;;;
        x <-- aoutcome (e_analyse env (sv_customFuncs s) (sv_tempMain s) (sv_routes s) (sv_components s)) ;;;
        _ <-- modify (with_results (fst (fst x)) (snd (fst x))) ;;;
        aoutcome (match snd x with None => Ok tt | Some e => Err e end)
    | PaUser answer => aoutcome answer
    end.

  Fixpoint runParses (l : list Input) : act unit :=
    match l with
    | [] => aret tt
    | i :: r => _ <-- log (EvParseInput (in_mode i)) ;;; _ <-- runParse (in_parse i) ;;; runParses r
    end.

  (** parseRoutes.go:5-27 *)
  Definition ParseRoutes : act unit :=
    _ <-- log EvParse ;;;
    s <-- service ;;;
    _ <-- runParses (sv_inputs s) ;;;
    cacheIfEnabled.

  (** clean.go:10-32 *)
  Definition cleanTypes : act unit :=
    mainPkg <-- GetMainPackageName ;;;
    modify (fun s => with_results (cleanRoutes mainPkg (sv_routes s)) (cleanComponents mainPkg (sv_components s)) s).

  (** clean.go:7-45 *)
  Definition Clean : act unit :=
    _ <-- log EvClean ;;;
    _ <-- cleanTypes ;;;
    cacheIfEnabled.

  (** ** Outputs *)

  Definition w_set_names (n : list (string * string)) (w : World) : World :=
    mkWorld (w_fs w) (w_cwd w) n (w_clock w) (w_past w) (w_log w).

  (** The variable a generator captured: that of output number [n], holding a function made by [mk]. *)
  Definition capture (n : nat) (o : Output) (mk : string -> generateFn) (p : string) : act unit :=
    modify (fun s => with_outputs (set_nth n (mkOutput (out_mode o) (mk p) (out_config o)) (sv_outputs s)) s).

  (** outputs/openapi/generate.go:297-300 *)
  Definition openapiPath (filePath : string) : string :=
    if negb (has_suffix ".json" filePath) && negb (has_suffix ".yaml" filePath) && negb (has_suffix ".yml" filePath)
    then filePath ++ ".json" else filePath.

  (** outputs/openapi/generate.go:26-325: M_OpenAPI.buildDocument, then the file.  [setPath] assigns the captured path.
      Marshalling does not fail.  fullTypeMapping is built on the first question about a type; here always. *)
  Definition generateOpenAPI (setPath : string -> act unit) (filePath : string) : act unit :=
    s <-- service ;;;
    let custom := match sv_memo s with Some c => c | None => sv_customTypes s end in
    x <-- (fun s w => (buildDocument (e_orders env) custom (sv_config s) (sv_routes s) (sv_components s) (w_names w), s, w)) ;;;
    _ <-- (fun s w => (Ok tt, with_memo (Some custom) (with_config (Some (snd (fst x))) s), w_set_names (snd x) w)) ;;;
    let yaml := is_yaml (openapiPath filePath) in
    let filePath := path_Join [sv_workDir s; openapiPath filePath] in
    _ <-- setPath filePath ;;;
    os_WriteFile filePath (CDocument yaml (fst (fst x))).

  (** outputs/json/generate.go:36-39 *)
  Definition jsonPath (filePath : string) : string :=
    if negb (has_suffix ".json" filePath) then filePath ++ ".json" else filePath.

  (** outputs/json/generate.go:21-52 *)
  Definition generateJSON (setPath : string -> act unit) (filePath : string) : act unit :=
    s <-- service ;;;
    let filePath := path_Join [sv_workDir s; jsonPath filePath] in
    _ <-- setPath filePath ;;;
    os_WriteFile filePath (CResults (sv_routes s) (sv_components s)).

  (** outputs/azureFunctions/convertRoute.go:10-26 *)
  Definition acceptedTypeMap : list (string * string) :=
    [("string", "alpha"); ("int", "long"); ("int32", "int"); ("int64", "long"); ("uint", "long");
     ("uint32", "int"); ("uint64", "long"); ("float", "double"); ("float32", "float"); ("float64", "double");
     ("bool", "bool"); ("time.Time", "datetime"); ("github.com/google/uuid.UUID", "guid")].

  (** outputs/azureFunctions/convertRoute.go:31-43.  No type in the table is empty, so line 34 is dead. *)
  Definition convertParam (routeString : string) (p : Param) : string :=
    match mlookup (f_type (p_field p)) acceptedTypeMap with
    | None => routeString
    | Some azureType =>
        if p_isRequired p
        then replace_first (":" ++ p_name p) ("{" ++ p_name p ++ ":" ++ azureType ++ "}") routeString
        else replace_first ("*" ++ p_name p) ("{" ++ p_name p ++ ":" ++ azureType ++ "?}") routeString
    end.
  Definition convertRoute (route : Route) : string := fold_left convertParam (rt_pathParams route) (rt_path route).

  (** outputs/azureFunctions/associatedMethods.go:5-7 *)
  Definition associatedMethods (method : string) : list string := [to_lower method; "options"].

  (** outputs/azureFunctions/generate.go:38-39 *)
  Definition funcName (route : Route) : string := last (split "." (rt_handler route)) "".

  (** outputs/azureFunctions/generate.go:37-80.  The two bindings are the trigger with these methods and this route
      and a constant one. *)
  Fixpoint azureFunctions (tempDir : string) (routes : list Route) : act unit :=
    match routes with
    | [] => aret tt
    | r :: rest =>
        let functionDirectoryPath := path_Join [tempDir; funcName r] in
        let filePath := path_Join [functionDirectoryPath; "function.json"] in
        _ <-- os_Mkdir functionDirectoryPath ;;;
        _ <-- os_WriteFile filePath (CFunction (associatedMethods (rt_method r)) (convertRoute r)) ;;;
        azureFunctions tempDir rest
    end.

  (** outputs/azureFunctions/generate.go:27-91 *)
  Definition generateAzure (directoryPath : string) : act unit :=
    tempDir <-- SetupTempOutputDir "azure" ;;;
    s <-- service ;;;
    _ <-- azureFunctions tempDir (sv_routes s) ;;;
    MoveTempOutputDir "azure" directoryPath.

  (** Calling the function of output number [n]. *)
  Definition runGenerate (n : nat) (o : Output) : act unit :=
    match out_generate o with
    | GeNil => aoutcome Panic
    | GeOpenAPI p => generateOpenAPI (capture n o GeOpenAPI) p
    | GeJSON p => generateJSON (capture n o GeJSON) p
    | GeAzure d => generateAzure d
    | GeUser answer => aoutcome answer
    end.

  (** generate.go:6-14: output number [n] on. *)
  Fixpoint runGenerates (n : nat) (l : list Output) : act unit :=
    match l with
    | [] => aret tt
    | o :: r =>
        _ <-- log (EvOutput (out_mode o)) ;;;
        _ <-- runGenerate n o ;;;
        runGenerates (S n) r
    end.

  (** generate.go:4-27 *)
  Definition Generate : act unit :=
    _ <-- log EvGenerate ;;;
    s <-- service ;;;
    _ <-- runGenerates 0 (sv_outputs s) ;;;
    cacheIfEnabled.

  (** An error that is only logged. *)
  Definition ignore (m : act unit) : act unit := fun s w =>
    match m s w with
    | (Err _, s', w') => (Ok tt, s', w')
    | x => x
    end.

  (** teardown.go:8-24 *)
  Definition cleanUp : act unit :=
    s <-- service ;;;
    ignore (if negb (sv_cacheEnabled s) && (match sv_cliMode s with CLIModeNone => true | _ => false end)
            then cleanupAstraDir else cleanupTempMainPackage).

  (** teardown.go:5-28 *)
  Definition Teardown : act unit :=
    _ <-- log EvTeardown ;;;
    cleanUp.

  (** parse.go:12-20 and 47-55 *)
  Definition checkIO : act unit :=
    s <-- service ;;;
    match sv_inputs s, sv_outputs s with
    | [], _ => aoutcome (Err "input not set")
    | _, [] => aoutcome (Err "output not set")
    | _, _ => aret tt
    end.

  (** parse.go:9-39 *)
  Definition SetupParse : act unit :=
    _ <-- checkIO ;;;
    _ <-- Setup ;;;
    ServiceCreateRoutes.

  (** parse.go:44-86 *)
  Definition CompleteParse : act unit :=
    _ <-- checkIO ;;;
    _ <-- ParseRoutes ;;;
    _ <-- Clean ;;;
    _ <-- Generate ;;;
    Teardown.

  (** parse.go:91-109 *)
  Definition Parse : act unit :=
    _ <-- SetupParse ;;;
    CompleteParse.

  (** ** Options and the command line *)

  Definition InputModeGin := "gin".
  Definition OutputModeAzureFunctions := "azureFunctions".
  Definition OutputModeJSON := "json".
  Definition OutputModeOpenAPI := "openapi".

  (** inputs/inputs.go:13-33 *)
  Definition WithGinInput (router : option (list GinRoute)) (s : Service) : Service :=
    with_inputs (sv_inputs s ++ [mkInput InputModeGin (CrGin router) PaGin])%list s.
  (** outputs/outputs.go:16-60 *)
  Definition addOutput (o : Output) (s : Service) : Service := with_outputs (sv_outputs s ++ [o])%list s.
  Definition WithAzureFunctionsOutput (directoryPath : string) : Service -> Service :=
    addOutput (mkOutput OutputModeAzureFunctions (GeAzure directoryPath)
                        [(IOConfigurationKeyDirectoryPath, VStr directoryPath)]).
  Definition WithOpenAPIOutput (filePath : string) : Service -> Service :=
    addOutput (mkOutput OutputModeOpenAPI (GeOpenAPI filePath) [(IOConfigurationKeyFilePath, VStr filePath)]).
  Definition WithJSONOutput (filePath : string) : Service -> Service :=
    addOutput (mkOutput OutputModeJSON (GeJSON filePath) [(IOConfigurationKeyFilePath, VStr filePath)]).

  (** The value of a configuration key asserted to be a string. *)
  Definition config_string (k : string) (o : Output) : string * bool :=
    match mlookup k (out_config o) with Some (VStr v) => (v, true) | _ => ("", false) end.

  (** cli/astra/cmd/rebind.go:28-41 *)
  Fixpoint rebindInputs (l : list Input) (s : Service) : outcome Service :=
    match l with
    | [] => Ok s
    | i :: r => if String.eqb (in_mode i) InputModeGin then rebindInputs r (WithGinInput None s)
                else Err "input mode not found"
    end.

  (** cli/astra/cmd/rebind.go:46-75 *)
  Fixpoint rebindOutputs (l : list Output) (s : Service) : outcome Service :=
    match l with
    | [] => Ok s
    | o :: r =>
        if String.eqb (out_mode o) OutputModeAzureFunctions then
          let (directoryPath, ok) := config_string IOConfigurationKeyDirectoryPath o in
          if ok || String.eqb directoryPath "" then Err "output directory path is required"
          else rebindOutputs r (WithAzureFunctionsOutput directoryPath s)
        else if String.eqb (out_mode o) OutputModeJSON then
          let (filePath, ok) := config_string IOConfigurationKeyFilePath o in
          if negb ok || String.eqb filePath "" then Err "output file path is required"
          else rebindOutputs r (WithJSONOutput filePath s)
        else if String.eqb (out_mode o) OutputModeOpenAPI then
          let (filePath, ok) := config_string IOConfigurationKeyFilePath o in
          if negb ok || String.eqb filePath "" then Err "output file path is required"
          else rebindOutputs r (WithOpenAPIOutput filePath s)
        else Err "output mode not found"
    end.

  (** cli/astra/cmd/rebind.go:12-24.  After an error the process exits, so the half-bound service is not
      kept. *)
  Definition rebindOptions (s : Service) : outcome Service :=
    s1 <- rebindInputs (sv_inputs s) (with_inputs [] s) ;;
    rebindOutputs (sv_outputs s) (with_outputs [] s1).

  (** new.go:14-32: the service the options start from. *)
  Definition emptyService : Service :=
    mkService [] [] None [] [] "" "" false "" CLIModeNone [] [] [] None.
  Definition New (opts : list (Service -> Service)) : Service := fold_left (fun s o => o s) opts emptyService.

  (** cli/cli.go:7-20, options.go:4-8, cache/cache.go:6-18, config.go:47-57 *)
  Definition WithCLI (s : Service) : Service := with_cache true (sv_cachePath s) CLIModeSetup s.
  Definition WithCLIBuilder (s : Service) : Service := with_cache (sv_cacheEnabled s) (sv_cachePath s) CLIModeBuilder s.
  Definition WithCustomWorkDir (wd : string) (s : Service) : Service := with_workDir wd s.
  Definition WithCache (s : Service) : Service := with_cache true (sv_cachePath s) (sv_cliMode s) s.
  Definition WithCustomCachePath (p : string) (s : Service) : Service := with_cache true p (sv_cliMode s) s.
  Definition WithConfig (c : option Config) (s : Service) : Service := with_config c s.

  (** cli/astra/cmd/generate.go:27-60: the command, with its two flags.  Exiting is the error.  It is a
      process of its own, whose package variables start empty. *)
  Definition cliGenerate (cacheFile cwd : string) : act unit := fun s0 w =>
    (wd <-- (if negb (is_rooted cwd) then (wd <-- os_Getwd ;;; aret (path_Join [wd; cwd])) else aret cwd) ;;;
     _ <-- modify (fun _ => New [WithCLIBuilder; WithCustomWorkDir wd]) ;;;
     _ <-- LoadCacheFromCustomPath cacheFile ;;;
     s <-- service ;;;
     s' <-- aoutcome (rebindOptions s) ;;;
     _ <-- modify (fun _ => s') ;;;
     CompleteParse) s0 (w_set_names [] w).
End Calls.
