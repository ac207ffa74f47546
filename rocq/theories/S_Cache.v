(** What a cache can hold and what a cached service should come back as. *)
From Coq Require Import List String Ascii Bool ZArith Arith.
From Verif Require Import BaseStr BaseMap M_Types M_Collect M_OpenAPI M_Parse M_Clean M_FS M_Service.
Import ListNotations.
Local Open Scope string_scope.

(** ** Valid UTF-8: the well-formed byte sequences of the Unicode standard (table 3-7) *)
Definition byte_in (lo hi : nat) (c : ascii) : Prop := lo <= nat_of_ascii c <= hi.
Inductive utf8 : string -> Prop :=
| utf8_end : utf8 ""
| utf8_1 a r : byte_in 0 127 a -> utf8 r -> utf8 (String a r)
| utf8_2 a b r : byte_in 194 223 a -> byte_in 128 191 b -> utf8 r -> utf8 (String a (String b r))
| utf8_3a a b c r : byte_in 224 224 a -> byte_in 160 191 b -> byte_in 128 191 c -> utf8 r -> utf8 (String a (String b (String c r)))
| utf8_3b a b c r : byte_in 225 236 a -> byte_in 128 191 b -> byte_in 128 191 c -> utf8 r -> utf8 (String a (String b (String c r)))
| utf8_3c a b c r : byte_in 237 237 a -> byte_in 128 159 b -> byte_in 128 191 c -> utf8 r -> utf8 (String a (String b (String c r)))
| utf8_3d a b c r : byte_in 238 239 a -> byte_in 128 191 b -> byte_in 128 191 c -> utf8 r -> utf8 (String a (String b (String c r)))
| utf8_4a a b c d r : byte_in 240 240 a -> byte_in 144 191 b -> byte_in 128 191 c -> byte_in 128 191 d -> utf8 r -> utf8 (String a (String b (String c (String d r))))
| utf8_4b a b c d r : byte_in 241 243 a -> byte_in 128 191 b -> byte_in 128 191 c -> byte_in 128 191 d -> utf8 r -> utf8 (String a (String b (String c (String d r))))
| utf8_4c a b c d r : byte_in 244 244 a -> byte_in 128 143 b -> byte_in 128 191 c -> byte_in 128 191 d -> utf8 r -> utf8 (String a (String b (String c (String d r)))).

(** ** Data JSON can carry: text, and no integers among values of type any *)
Definition texts (l : list string) : Prop := Forall utf8 l.
Definition carried_enum (e : enumval) : Prop :=
  match e with EStr s => utf8 s | EInt _ => False | EBool _ => True | EFloat _ => True end.
Fixpoint carried_field (f : Field) : Prop :=
  match f with
  | mkField pkg typ name enum req emb sliceT arrayT arrayL mkp mkt mv sf bt vt doc =>
      texts [pkg; typ; name; sliceT; arrayT; mkp; mkt; mv; doc] /\
      Forall carried_enum enum /\
      fold_right (fun kf acc => utf8 (fst kf) /\ carried_field (snd kf) /\ acc) True sf /\
      Forall (fun kt => utf8 (fst kt) /\ utf8 (bt_name (snd kt))) bt /\
      Forall (fun kv => utf8 (fst kv)) vt
  end.
Definition carried_param (p : Param) : Prop := utf8 (p_name p) /\ carried_field (p_field p).
Definition carried_body (b : BodyParam) : Prop := utf8 (b_name b) /\ utf8 (b_contentType b) /\ carried_field (b_field b).
Definition carried_return (r : ReturnType) : Prop := utf8 (r_contentType r) /\ carried_field (r_field r).
Definition carried_route (r : Route) : Prop :=
  texts [rt_handler r; rt_file r; rt_method r; rt_path r; rt_doc r; rt_operationId r] /\
  Forall carried_param (rt_pathParams r) /\ Forall carried_param (rt_queryParams r) /\ Forall carried_body (rt_body r) /\
  Forall carried_return (rt_returns r) /\ Forall carried_param (rt_reqHeaders r) /\ Forall carried_param (rt_respHeaders r).
Definition carried_config (c : Config) : Prop :=
  texts [c_title c; c_description c; c_version c; fst (fst (c_contact c)); snd (fst (c_contact c)); snd (c_contact c);
         fst (c_license c); snd (c_license c); c_host c; c_basePath c].
Definition carried_output (o : Output) : Prop :=
  utf8 (out_mode o) /\ Forall (fun kv => utf8 (fst kv) /\ match snd kv with VStr v => utf8 v | VAny => True end) (out_config o).
Definition carried (s : Service) : Prop :=
  Forall (fun i => utf8 (in_mode i)) (sv_inputs s) /\ Forall carried_output (sv_outputs s) /\
  match sv_config s with Some c => carried_config c | None => True end /\
  Forall carried_route (sv_routes s) /\ Forall carried_field (sv_components s).

(** ** Loading *)

(** The loaded service has the cached parts of the other. *)
Definition same_cached (s s' : Service) : Prop :=
  map in_mode (sv_inputs s') = map in_mode (sv_inputs s) /\
  map (fun o => (out_mode o, out_config o)) (sv_outputs s') = map (fun o => (out_mode o, out_config o)) (sv_outputs s) /\
  sv_config s' = sv_config s /\ sv_routes s' = sv_routes s /\ sv_components s' = sv_components s.
(** Everything that a load should leave alone. *)
Definition same_uncached (s s' : Service) : Prop :=
  sv_tempMain s' = sv_tempMain s /\ sv_workDir s' = sv_workDir s /\ sv_cacheEnabled s' = sv_cacheEnabled s /\
  sv_cachePath s' = sv_cachePath s /\ sv_cliMode s' = sv_cliMode s /\ sv_denyList s' = sv_denyList s /\
  sv_customFuncs s' = sv_customFuncs s.

(** ** Where the cache of a service is *)
Definition cache_place (s : Service) (w : World) : list string :=
  locate (w_cwd w) (if String.eqb (sv_cachePath s) "" then path_Join [path_Join [sv_workDir s; ".astra"]; "cache.json"] else sv_cachePath s).
Definition cache_name (s : Service) : string :=
  if String.eqb (sv_cachePath s) "" then "cache.json" else sv_cachePath s.

(** ** Outputs the command line can rebuild *)
Definition file_output (o : Output) (mode path : string) : Prop :=
  out_mode o = mode /\ path <> "" /\ mlookup "filePath" (out_config o) = Some (VStr path).

(** An output as it should be after rebinding: mode and path as configured, and the generator of that mode. *)
Definition bound_output (o o' : Output) : Prop :=
  exists path, path <> "" /\ mlookup "filePath" (out_config o) = Some (VStr path) /\
    out_mode o' = out_mode o /\ out_config o' = [("filePath", VStr path)] /\
    (out_mode o = "json" /\ out_generate o' = GeJSON path \/ out_mode o = "openapi" /\ out_generate o' = GeOpenAPI path).
Definition bound_input (i i' : Input) : Prop :=
  in_mode i = "gin" /\ in_mode i' = "gin" /\ in_create i' = CrGin None /\ in_parse i' = PaGin.
(** Everything but inputs and outputs. *)
Definition same_but_io (s s' : Service) : Prop :=
  sv_config s' = sv_config s /\ sv_routes s' = sv_routes s /\ sv_components s' = sv_components s /\
  same_uncached s s' /\ sv_customTypes s' = sv_customTypes s /\ sv_memo s' = sv_memo s.
