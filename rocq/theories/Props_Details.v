(** The library functions and tables behind C05, C11, C34, C38, C46, C47, C54, C57 and C69, against their specifications. *)
From Coq Require Import List String Ascii Bool ZArith NArith Arith Lia.
From Verif Require Import BaseStr BaseMap M_Types M_Tags M_Collect S_Collect M_TypeTrav M_OpenAPI M_Parse M_Resolve M_Clean M_FS P_FS M_Service S_Tags P_Tags Props_Tags S_Paths P_Paths M_Paths S_Literal P_Literal S_Details P_Details.
Import ListNotations.
Local Open Scope string_scope.

(** C05: the package of a handler has a name, the last element of its path. *)
Theorem C05_package_name :
  forall s, exists n, PackageName (SplitHandlerPath s) = Ok n /\ has_char "/" n = false /\
    (PackagePath (SplitHandlerPath s) = n \/ exists d, PackagePath (SplitHandlerPath s) = d ++ "/" ++ n).
Proof. exact package_name. Qed.
Print Assumptions C05_package_name.
Example C05_name_nontrivial : PackageName (SplitHandlerPath "github.com/x/api.Handle.func1") = Ok "api".
Proof. reflexivity. Qed.

(** C11: quoted values mean what the language says they mean. *)
Theorem C11_unquote : forall text v, unquote text = Some v <-> literal text v.
Proof. exact unquote_spec. Qed.
Print Assumptions C11_unquote.
Example C11_unquote_nontrivial :
  literal "a\n\x41\101é\U0001F600" ("a" ++ text_of [10; 65; 65; 195; 169; 240; 159; 152; 128]%N) /\ ~ (exists v, literal "\ud800" v).
Proof.
  split; [apply unquote_spec; vm_compute; reflexivity|]. intros (v & H). apply unquote_spec in H. vm_compute in H. discriminate.
Qed.

(** C11: a field is bound by the keys header, form, uri, json, xml and yaml of its tag and by no other. *)
Theorem C11_keys :
  forall field tag k v, field <> "" -> tag_has tag k v ->
    (In k (map fst (fst (ParseStructTag field tag))) <-> In k ["header"; "form"; "uri"; "json"; "xml"; "yaml"]).
Proof.
  intros field tag k v F T. destruct (C11_usable_bindings field tag F) as (_ & _ & _ & I & B). split.
  - intros H. apply in_map_iff in H as ((t & b) & E & H). cbn in E. subst t. destruct (B k b H) as ([->|H'] & _); [|exact H'].
    exfalso. assert (X : forall tag k v, tag_has tag k v -> k <> "") by (clear; induction 1; auto). now apply (X _ _ _ T).
  - intros H. apply (I k H). eauto.
Qed.
Print Assumptions C11_keys.
Example C11_keys_nontrivial :
  let tag := "json:" ++ str1 M_Tags.dquote ++ "a" ++ str1 M_Tags.dquote ++ " db:" ++ str1 M_Tags.dquote ++ "b" ++ str1 M_Tags.dquote in
  tag_has tag "json" "a" /\ tag_has tag "db" "b" /\ map fst (fst (ParseStructTag "F" tag)) = ["json"].
Proof. cbv zeta. split; [apply lookup_spec; vm_compute; reflexivity|]. split; [apply lookup_spec; vm_compute; reflexivity|vm_compute; reflexivity]. Qed.

(** C34: the names on the left of declarations and assignments are those of variables and fields. *)
Theorem C34_targets : forall e n, n <> "" -> (ExtractVarName e = n <-> names_place e n).
Proof. exact extract_spec. Qed.
Print Assumptions C34_targets.
Example C34_targets_nontrivial : ExtractVarName (ESel (ESel (EIdent 0 "s" None) 1 "config") 2 "page") = "page".
Proof. reflexivity. Qed.

(** C38: the numbers among the values of an enum come back as the nearest numbers a float64 holds. *)
Theorem C38_numbers :
  forall z, exists w, json_enum (EInt z) = EFloat (itoa w) /\ representable w /\ forall r, representable r -> (Z.abs (z - w) <= Z.abs (z - r))%Z.
Proof. intros z. exists (float_round z). split; [reflexivity|]. apply float_round_spec. Qed.
Print Assumptions C38_numbers.
(** Up to 2^53 and some beyond they come back as they are. *)
Theorem C38_numbers_exact : forall z, representable z -> json_enum (EInt z) = EFloat (itoa z).
Proof.
  intros z R. destruct (C38_numbers z) as (w & E & _ & N). specialize (N z R). rewrite E. assert (w = z) as -> by lia. reflexivity.
Qed.
Print Assumptions C38_numbers_exact.
Example C38_numbers_nontrivial :
  representable (2 ^ 60 + 2 ^ 10)%Z /\ json_enum (EInt (2 ^ 53 + 1)%Z) = EFloat "9007199254740992" /\ json_enum (EInt (- (2 ^ 53 + 3))%Z) = EFloat "-9007199254740996".
Proof. split; [exists (2 ^ 50 + 1)%Z, 10%Z; repeat split; discriminate|split; vm_compute; reflexivity]. Qed.

(** C46: a parameter gets the constraint of its type; one of another type is left as it is. *)
Theorem C46_constraint :
  forall r p name type k,
    rt_path r = "/:" ++ name -> rt_pathParams r = [p] -> p_name p = name -> p_isRequired p = true -> f_type (p_field p) = type ->
    has_constraint type k -> convertRoute r = "/{" ++ name ++ ":" ++ k ++ "}".
Proof.
  intros r p name type k P PP N R T C. unfold convertRoute. rewrite PP, P. cbn [fold_left]. unfold convertParam. rewrite T.
  apply constraint_spec in C. rewrite C, R, N.
  pose proof (replace_first_spec (":" ++ name) ("{" ++ name ++ ":" ++ k ++ "}") "/" "") as X. rewrite !append_nil_r in X.
  change ("/:" ++ name) with ("/" ++ ":" ++ name). rewrite X; [reflexivity|discriminate|]. intros a' L b'. destruct a' as [|? [|]]; cbn in *; try lia. discriminate.
Qed.
Print Assumptions C46_constraint.
Theorem C46_no_constraint :
  forall r, (forall p k, In p (rt_pathParams r) -> ~ has_constraint (f_type (p_field p)) k) -> convertRoute r = rt_path r.
Proof.
  intros r H. unfold convertRoute. revert H. generalize (rt_path r). induction (rt_pathParams r) as [|p l IH]; intros s H; [reflexivity|].
  cbn [fold_left]. unfold convertParam at 2. rewrite (proj2 (constraint_none (f_type (p_field p)))); [|intros k; apply H; now left].
  apply IH. intros q k I. apply H. now right.
Qed.
Print Assumptions C46_no_constraint.
Example C46_constraint_nontrivial :
  let r t := mkRoute "main.f" "main.go" 3%Z "GET" "/:id" [mkParam "id" (field_of_type t) true false false false] [] [] [] "" "" [] [] in
  convertRoute (r "github.com/google/uuid.UUID") = "/{id:guid}" /\ convertRoute (r "uint32") = "/{id:int}" /\ convertRoute (r "main.ID") = "/:id".
Proof. repeat split; vm_compute; reflexivity. Qed.

(** C47: the folder is moved exactly when rename(2) allows it. *)
Theorem C47_rename :
  forall (src dst : list string) (k j : string) (t : tree content),
    is_prefix (src ++ [k]) (dst ++ [j]) = false ->
    ((exists t', rename (src ++ [k]) (dst ++ [j]) t = Some t') <->
     kind_at (src ++ [k]) t <> None /\ kind_at dst t = Some KDir /\ replaces (src ++ [k]) (dst ++ [j]) t).
Proof. intros. now apply rename_exact. Qed.
Print Assumptions C47_rename.
Example C47_rename_nontrivial :
  let t := Dir [("a", Dir [("f", File (CBytes ""))]); ("b", Dir []); ("c", Dir [("g", File (CBytes ""))])] in
  rename ["a"] ["b"] t = Some (Dir [("b", Dir [("f", File (CBytes ""))]); ("c", Dir [("g", File (CBytes ""))])]) /\
  rename ["a"] ["c"] t = None /\ rename ["a"; "f"] ["b"] t = None.
Proof. repeat split; vm_compute; reflexivity. Qed.

(** C54, C69: the white space trimmed is that of Unicode. *)
Theorem C54_white_space : forall x, In x space_runes <-> exists n, white_space n /\ encodes n x.
Proof. exact space_spec. Qed.
Print Assumptions C54_white_space.
Example C54_white_space_nontrivial : In (text_of [227; 128; 128]%N) space_runes /\ ~ In (text_of [226; 128; 139]%N) space_runes.
Proof. split; [vm_compute; tauto|]. vm_compute. intuition discriminate. Qed.

(** C57: the file of a handler is found by the last element of its path. *)
Theorem C57_base : forall p b, path_Base p = b <-> base_name p b.
Proof. intros. symmetry. apply base_spec. Qed.
Print Assumptions C57_base.
Example C57_base_nontrivial : base_name "/home/x/main.go//" "main.go" /\ base_name "///" "/" /\ base_name "" ".".
Proof. split; [|split]; apply base_spec; reflexivity. Qed.

(** C01: what is recorded of a path parameter besides its name is that it is a string. *)
Theorem C01_strings :
  forall path p, In p (ExtractParamsFromPath path) ->
    p_field p = mkField "" "string" "" [] false false "" "" 0 "" "" "" [] [] [] "" /\ p_isArray p = false /\ p_isMap p = false /\ p_isBound p = false.
Proof.
  intros path p H. destruct (extract_exact path) as (ps & _ & E). rewrite E in H. apply in_map_iff in H as ((m & n) & <- & _). repeat split.
Qed.
Print Assumptions C01_strings.
Example C01_strings_nontrivial : map p_name (ExtractParamsFromPath "/a/:b/*c") = ["b"; "c"].
Proof. reflexivity. Qed.

(** C37: a nil router, or an input without a function to create routes, crashes the creation of routes. *)
Theorem C37_nil_input :
  forall env s w i rest, sv_inputs s = i :: rest -> in_create i = CrNil \/ in_create i = CrGin None ->
    exists w', ServiceCreateRoutes env s w = (Panic, s, w').
Proof.
  intros env s w i rest I C. unfold ServiceCreateRoutes, abind, log, service. rewrite I. cbn [runCreates]. unfold abind, log.
  destruct C as [C|C]; rewrite C; cbn [runCreate]; unfold aoutcome; eexists; reflexivity.
Qed.
Print Assumptions C37_nil_input.
Example C37_nil_nontrivial : exists s i rest, sv_inputs s = i :: rest /\ in_create i = CrGin None.
Proof. exists (New [WithGinInput None]). eexists _, _. split; reflexivity. Qed.
