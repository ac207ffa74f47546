(** The options of New, the configuration and its builder: new.go, options.go, logger.go, listing.go, formatTypes.go,
    contextFuncBuilder.go, config.go, configBuilder.go, cache/cache.go, cli/cli.go, inputs/inputs.go, outputs/outputs.go. *)
From Coq Require Import List String Ascii Bool ZArith Arith.
From Verif Require Import BaseStr BaseMap M_Types M_Collect M_OpenAPI M_Parse M_Clean M_FS M_Service.
Import ListNotations.
Local Open Scope string_scope.

(** ** Options *)

(** zerolog.Logger: where it writes (0 is the console) and its level. *)
Record Logger := mkLogger { lg_to : nat; lg_level : string }.

(** The options there are.  A regular expression is the function it decides; a map is its pairs in the order in which Go happens
    to iterate, each key once. *)
Inductive opt :=
| OGinInput (router : option (list GinRoute))
| OAzure (directoryPath : string) | OOpenAPI (filePath : string) | OJSON (filePath : string)
| OConfig (c : option Config) | OWorkDir (wd : string)
| OCLI | OCLIBuilder | OCache | OCachePath (p : string)
| ODeny (path : string) | ODenyRegex (matches : string -> bool) | ODenyFunc (f : string -> bool)
| OFunc (f : customFunc)
| OTypes (m : list (string * TypeFormat)) | OTypeSingle (key valueType valueFormat : string)
| OLogger (l : Logger) | OLogLevel (level : string).

(** logger.go:17-36: unknown levels mean info.  The values of zerolog's level names. *)
Definition logLevel (level : string) : string :=
  if str_in level ["trace"; "debug"; "info"; "warn"; "error"; "fatal"; "panic"] then level else "info".

(** formatTypes.go:110-116 *)
Definition WithCustomTypeMapping (m : list (string * TypeFormat)) (s : Service) : Service :=
  with_customTypes (fold_left (fun acc kv => minsert (fst kv) (snd kv) acc) m (sv_customTypes s)) s.
(** formatTypes.go:119-126 *)
Definition WithCustomTypeMappingSingle (key valueType valueFormat : string) (s : Service) : Service :=
  with_customTypes (minsert key (mkTF valueType valueFormat) (sv_customTypes s)) s.
(** listing.go:5-25 *)
Definition WithPathDenyListFunc (f : string -> bool) (s : Service) : Service :=
  with_denyList (sv_denyList s ++ [f])%list s.
(** contextFuncBuilder.go:83-87 *)
Definition WithCustomFunc (f : customFunc) (s : Service) : Service :=
  with_customFuncs (sv_customFuncs s ++ [f])%list s.

(** One option applied to the service and its logger. *)
Definition applyOption (x : Service * Logger) (o : opt) : Service * Logger :=
  let (s, l) := x in
  match o with
  | OGinInput router => (WithGinInput router s, l)
  | OAzure d => (WithAzureFunctionsOutput d s, l)
  | OOpenAPI p => (WithOpenAPIOutput p s, l)
  | OJSON p => (WithJSONOutput p s, l)
  | OConfig c => (WithConfig c s, l)
  | OWorkDir wd => (WithCustomWorkDir wd s, l)
  | OCLI => (WithCLI s, l)
  | OCLIBuilder => (WithCLIBuilder s, l)
  | OCache => (WithCache s, l)
  | OCachePath p => (WithCustomCachePath p s, l)
  | ODeny path => (WithPathDenyListFunc (fun p => String.eqb p path) s, l)
  | ODenyRegex m => (WithPathDenyListFunc m s, l)
  | ODenyFunc f => (WithPathDenyListFunc f s, l)
  | OFunc f => (WithCustomFunc f s, l)
  | OTypes m => (WithCustomTypeMapping m s, l)
  | OTypeSingle k t f => (WithCustomTypeMappingSingle k t f s, l)
  | OLogger l' => (s, l')
  | OLogLevel lev => (s, mkLogger (lg_to l) (logLevel lev))
  end.

(** new.go:14-32 with the logger. *)
Definition NewWith (opts : list opt) : Service * Logger := fold_left applyOption opts (emptyService, mkLogger 0 "info").

(** ** The configuration and its builder *)

(** config.go:31-45: the configuration afterwards, and whether there was an error. *)
Definition Validate (c : Config) : Config * bool :=
  let c1 := if String.eqb (c_host c) ""
            then mkConfig (c_title c) (c_description c) (c_version c) (c_contact c) (c_license c) (c_secure c) "localhost" (c_basePath c) (c_port c)
            else c in
  if Z.eqb (c_port c1) 0 then (c1, true)
  else (if String.eqb (c_basePath c1) ""
        then mkConfig (c_title c1) (c_description c1) (c_version c1) (c_contact c1) (c_license c1) (c_secure c1) (c_host c1) "/" (c_port c1)
        else c1, false).

(** The setters of configBuilder.go:18-60. *)
Inductive setter :=
| SetTitle (s : string) | SetDescription (s : string) | SetVersion (s : string)
| SetContact (c : string * string * string) | SetLicense (l : string * string)
| SetSecure (b : bool) | SetHost (s : string) | SetBasePath (s : string) | SetPort (p : Z).
(** configBuilder.go:17-60: each assigns one field. *)
Definition applySetter (x : setter) (c : Config) : Config :=
  match x with
  | SetTitle s => mkConfig s (c_description c) (c_version c) (c_contact c) (c_license c) (c_secure c) (c_host c) (c_basePath c) (c_port c)
  | SetDescription s => mkConfig (c_title c) s (c_version c) (c_contact c) (c_license c) (c_secure c) (c_host c) (c_basePath c) (c_port c)
  | SetVersion s => mkConfig (c_title c) (c_description c) s (c_contact c) (c_license c) (c_secure c) (c_host c) (c_basePath c) (c_port c)
  | SetContact s => mkConfig (c_title c) (c_description c) (c_version c) s (c_license c) (c_secure c) (c_host c) (c_basePath c) (c_port c)
  | SetLicense s => mkConfig (c_title c) (c_description c) (c_version c) (c_contact c) s (c_secure c) (c_host c) (c_basePath c) (c_port c)
  | SetSecure s => mkConfig (c_title c) (c_description c) (c_version c) (c_contact c) (c_license c) s (c_host c) (c_basePath c) (c_port c)
  | SetHost s => mkConfig (c_title c) (c_description c) (c_version c) (c_contact c) (c_license c) (c_secure c) s (c_basePath c) (c_port c)
  | SetBasePath s => mkConfig (c_title c) (c_description c) (c_version c) (c_contact c) (c_license c) (c_secure c) (c_host c) s (c_port c)
  | SetPort s => mkConfig (c_title c) (c_description c) (c_version c) (c_contact c) (c_license c) (c_secure c) (c_host c) (c_basePath c) s
  end.

(** Config{}. *)
Definition zeroConfig : Config := mkConfig "" "" "" ("", "", "") ("", "") false "" "" 0.

(** Configurations live in memory and are handled by pointer: a builder is a pointer to its configuration
    (configBuilder.go:7-15), and so is what Build gives (configBuilder.go:62-67). *)
Definition memory := list Config.
(** The configuration at a pointer. *)
Definition deref (p : nat) (m : memory) : Config := nth p m zeroConfig.

(** The calls on builders: NewConfigBuilder, a setter, Build (configBuilder.go:11-67). *)
Inductive bcall :=
| CNew
| CSet (b : nat) (x : setter)
| CBuild (b : nat)
| CValidate (p : nat).

(** One call: memory afterwards, and the pointer it gives, nil after an error. *)
Definition doCall (c : bcall) (m : memory) : memory * option nat :=
  match c with
  | CNew => ((m ++ [zeroConfig])%list, Some (List.length m))
  | CSet b x => (set_nth b (applySetter x (deref b m)) m, Some b)
  | CBuild b => let (c', failed) := Validate (deref b m) in
                (set_nth b c' m, if failed then None else Some b)
  | CValidate p => let (c', failed) := Validate (deref p m) in
                   (set_nth p c' m, if failed then None else Some p)
  end.
(** Calls one after the other. *)
Definition doCalls (cs : list bcall) (m : memory) : memory := fold_left (fun m c => fst (doCall c m)) cs m.
