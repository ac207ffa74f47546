(** What options and configuration calls should come to. *)
From Coq Require Import List String Ascii Bool ZArith Arith.
From Verif Require Import BaseStr BaseMap M_Types M_Collect M_OpenAPI M_Parse M_Clean M_FS M_Service M_Options.
Import ListNotations.
Local Open Scope string_scope.

(** The values given in a list, in order. *)
Definition values {A B} (f : A -> option B) (l : list A) : list B :=
  flat_map (fun x => match f x with Some v => [v] | None => [] end) l.

(** ** What an option gives *)
Definition gives_input (o : opt) : option Input :=
  match o with OGinInput r => Some (mkInput "gin" (CrGin r) PaGin) | _ => None end.
Definition gives_output (o : opt) : option Output :=
  match o with
  | OAzure d => Some (mkOutput "azureFunctions" (GeAzure d) [("directoryPath", VStr d)])
  | OOpenAPI p => Some (mkOutput "openapi" (GeOpenAPI p) [("filePath", VStr p)])
  | OJSON p => Some (mkOutput "json" (GeJSON p) [("filePath", VStr p)])
  | _ => None
  end.
Definition gives_config (o : opt) : option (option Config) := match o with OConfig c => Some c | _ => None end.
Definition gives_workDir (o : opt) : option string := match o with OWorkDir d => Some d | _ => None end.
Definition gives_cachePath (o : opt) : option string := match o with OCachePath p => Some p | _ => None end.
Definition gives_mode (o : opt) : option CLIMode :=
  match o with OCLI => Some CLIModeSetup | OCLIBuilder => Some CLIModeBuilder | _ => None end.
Definition enables_cache (o : opt) : bool := match o with OCLI | OCache | OCachePath _ => true | _ => false end.
Definition gives_deny (o : opt) : option (string -> bool) :=
  match o with ODeny path => Some (fun p => String.eqb p path) | ODenyRegex f | ODenyFunc f => Some f | _ => None end.
Definition gives_func (o : opt) : option customFunc := match o with OFunc f => Some f | _ => None end.
Definition gives_type (key : string) (o : opt) : option TypeFormat :=
  match o with
  | OTypes m => mlookup key m
  | OTypeSingle k t f => if String.eqb k key then Some (mkTF t f) else None
  | _ => None
  end.
Definition gives_logger (o : opt) : option nat := match o with OLogger l => Some (lg_to l) | _ => None end.
(** A logger brings its level with it. *)
Definition gives_level (o : opt) : option string :=
  match o with
  | OLogger l => Some (lg_level l)
  | OLogLevel l => Some (if existsb (String.eqb l) ["trace"; "debug"; "info"; "warn"; "error"; "fatal"; "panic"] then l else "info")
  | _ => None
  end.

(** A Go map has each key once. *)
Definition a_map (o : opt) : Prop := match o with OTypes m => NoDup (map fst m) | _ => True end.

(** The things options are about. *)
Inductive thing := TInputs | TOutputs | TConfig | TWorkDir | TCachePath | TMode | TCaching | TDenyList | TFuncs | TType (key : string) | TLog.
Definition some {A} (x : option A) : bool := match x with Some _ => true | None => false end.
(** An option is about the cache being on only if that is all it does: nothing turns it off. *)
Definition about (t : thing) (o : opt) : bool :=
  match t with
  | TInputs => some (gives_input o) | TOutputs => some (gives_output o) | TConfig => some (gives_config o)
  | TWorkDir => some (gives_workDir o) | TCachePath => some (gives_cachePath o) | TMode => some (gives_mode o)
  | TCaching => match o with OCache => true | _ => false end
  | TDenyList => some (gives_deny o) | TFuncs => some (gives_func o) | TType k => some (gives_type k o)
  | TLog => some (gives_level o)
  end.

(** ** The configuration *)

Definition sets_title (x : setter) := match x with SetTitle v => Some v | _ => None end.
Definition sets_description (x : setter) := match x with SetDescription v => Some v | _ => None end.
Definition sets_version (x : setter) := match x with SetVersion v => Some v | _ => None end.
Definition sets_contact (x : setter) := match x with SetContact v => Some v | _ => None end.
Definition sets_license (x : setter) := match x with SetLicense v => Some v | _ => None end.
Definition sets_secure (x : setter) := match x with SetSecure v => Some v | _ => None end.
Definition sets_host (x : setter) := match x with SetHost v => Some v | _ => None end.
Definition sets_basePath (x : setter) := match x with SetBasePath v => Some v | _ => None end.
Definition sets_port (x : setter) := match x with SetPort v => Some v | _ => None end.

(** The setters called on a builder, in order. *)
Definition settings (b : nat) (cs : list bcall) : list setter :=
  values (fun c => match c with CSet b' x => if Nat.eqb b' b then Some x else None | _ => None end) cs.

Definition or_default (d v : string) : string := if String.eqb v "" then d else v.

(** The configuration these settings describe. *)
Definition described (l : list setter) (c : Config) : Prop :=
  c_title c = last (values sets_title l) "" /\ c_description c = last (values sets_description l) "" /\
  c_version c = last (values sets_version l) "" /\ c_contact c = last (values sets_contact l) ("", "", "") /\
  c_license c = last (values sets_license l) ("", "") /\ c_secure c = last (values sets_secure l) false /\
  c_host c = or_default "localhost" (last (values sets_host l) "") /\
  c_basePath c = or_default "/" (last (values sets_basePath l) "") /\
  c_port c = last (values sets_port l) 0%Z.

(** The call is made on this builder or pointer. *)
Definition call_on (p : nat) (c : bcall) : Prop :=
  match c with CNew => False | CSet b _ => b = p | CBuild b => b = p | CValidate q => q = p end.
