(** Proofs about query parameters, from the source to the document. *)
From Coq Require Import List String Ascii Bool ZArith Arith Relations Lia Permutation.
From Verif Require Import BaseStr BaseMap M_Types M_Paths M_Tags S_Tags P_Tags M_Collect S_Collect M_Clean S_Clean P_Clean
  M_TypeTrav S_TypeTrav P_TypeTrav P_Fields M_OpenAPI S_Names P_Names S_OpenAPI P_OpenAPI P_Schema S_More P_More S_Refs P_Refs S_Typed P_Typed
  M_Parse S_Parse P_Parse P_Parse2 P_Parse3 P_Parse4 P_Comps M_Service M_Resolve S_Resolve P_Resolve S_Sends P_Sends P_Sent S_Paths S_Service S_Whole P_Told S_Queries.
Import ListNotations.
Local Open Scope string_scope.

(** ** The properties of a struct without embedded fields *)
Lemma plain_props tm o names t site c s : valid_orders o ->
  (forall k g, In (k, g) (f_structFields c) -> f_isEmbedded g = false) ->
  tm (f_name c) (f_package c) = None -> f_type c = "struct" ->
  componentToSchema tm o names t site c = Some s -> all_props s = s_props s /\ property_names s = map fst (s_props s) /\ NoDup (map fst (s_props s)).
Proof.
  intros (_ & Hf & _) NE Ht Hs E. rewrite component_to_schema_eq, Ht, Hs in E. cbn in E. rewrite struct_loop_eq in E.
  destruct (forallb _ _); [|discriminate]. cbn [app] in E.
  assert (El : flat_map (embedded_entry names t) (o_fields o site (Field * option Schema) (field_entries tm o names t site (f_structFields c))) = []).
  { assert (A : forall e, In e (o_fields o site (Field * option Schema) (field_entries tm o names t site (f_structFields c))) -> embedded_entry names t e = []).
    { intros e He. apply (Permutation_in _ (Permutation_sym (Hf site _ _))) in He.
      apply in_map_iff in He as ([k' f'] & <- & Hkf'). unfold embedded_entry. cbn [fst snd]. now rewrite (NE k' f' Hkf'). }
    revert A. generalize (o_fields o site (Field * option Schema) (field_entries tm o names t site (f_structFields c))).
    intros l A. induction l as [|e l IH]; [reflexivity|]. cbn [flat_map]. rewrite (A e) by (simpl; auto).
    apply IH. intros; apply A; simpl; auto. }
  rewrite El in E. unfold finishStruct in E.
  set (m := fold_left _ _ _) in E. assert (MS : msorted m).
  { unfold m. generalize (flat_map (shown_entry t) (o_fields o site (Field * option Schema) (field_entries tm o names t site (f_structFields c)))).
    intros l. assert (X : msorted (@nil (string * Schema))) by constructor. revert X. generalize (@nil (string * Schema)).
    induction l as [|x l IH]; intros a X; cbn; auto. apply IH. now apply minsert_sorted. }
  assert (E' : s = objectSchema m) by (destruct m; injection E as <-; reflexivity). subst s.
  unfold all_props, property_names. cbn [objectSchema s_props s_allOf flat_map]. rewrite !app_nil_r. split; auto. split; auto. now apply msorted_NoDup.
Qed.

Lemma nodup_fst {A} (l : list (string * A)) n x y : NoDup (map fst l) -> In (n, x) l -> In (n, y) l -> x = y.
Proof.
  induction l as [|[k v] l IH]; intros ND H K; [destruct H|]. cbn in ND. inversion ND as [|? ? NI ND']; subst.
  destruct H as [H|H], K as [K|K]; try congruence; auto.
  - injection H as -> ->. exfalso. apply NI. apply in_map_iff. exists (n, y). auto.
  - injection K as -> ->. exfalso. apply NI. apply in_map_iff. exists (n, x). auto.
Qed.

Section Bound.
  Context (env : TypeEnv) (custom : list (string * TypeFormat)) (main t : string) (used : nat -> Prop) (level : string -> nat)
          (o : Orders) (config : option Config) (routes : list Route) (components : list Field) (d : Document) (names : list (string * string))
          (id0 : nat).
  Hypothesis Ho : valid_orders o.
  Hypothesis Hown : forall c, In c components -> exists id, used id /\ component_of env main id c.
  Hypothesis Hdist : distinct_types env main used.
  Hypothesis Hname : nameable env main used level.
  Hypothesis Hmap : named_mappings custom.
  Hypothesis HN : NoDup (map comp_key components).
  Hypothesis G : generated o custom config routes components [] d names.
  Hypothesis Ht : In t BindingTags.
  Hypothesis Hall : forall id p, reach env true (GNamed id0) (GNamed id) -> te_pkg env id = Some p ->
    used id /\ exists c, In c components /\ component_of env main id c.
  Hypothesis Htr : forall id, reach env true (GNamed id0) (GNamed id) -> plain_named env custom main t id.

  Lemma component_fits c site s : In c components -> component_of env main id0 c -> typeMapping custom (f_name c) (f_package c) = None ->
    componentToSchema (typeMapping custom) o names t site c = Some s ->
    forall n, fits components t (unfolds custom components d t n) c s.
  Proof.
    intros Hc C HM Es n. destruct (generated_inv _ _ _ _ _ _ _ _ G) as (cfg & _ & En & _ & _).
    assert (Hp := parsed_all env main used components Hown Hdist).
    assert (Hs := separated_all env main used level components Hown Hdist Hname).
    assert (Hpl := plain_all env main used level components Hown Hdist Hname).
    assert (HF : forall c', S_Refs.behind custom components c c' -> faithful custom components t c').
    { intros c' B. assert (R0 : reach env true (GNamed id0) (GNamed id0)) by constructor.
      destruct (reached_behind env custom main t used components (GNamed id0)) with (c0 := c) (c := c') (id0 := id0) as (id' & R' & Hc' & C'); auto.
      eapply (faithful_reached env custom main t used components (GNamed id0)); eauto. }
    destruct (HF c (behind_self _ _ c)) as (HNm & HD & HA & HOA). destruct (HOA HM) as (HO & HAl).
    refine (schema_fits o names custom components t t _ (names_type c) Ho _ _ c site s _ HO (HAl t Ht HD HNm (or_introl eq_refl)) HM Es); auto.
    - intros p typ x HI HC HX.
      assert (K : forall c2, In c2 components -> f_package c2 = p -> f_name c2 = typ -> unfolds custom components d t n p typ x).
      { intros c2 H2 P2 N2. subst p typ. assert (HB2 : S_Refs.behind custom components c c2) by (eapply behind_step; eauto using behind_self).
        destruct (HF c2 HB2) as (HNm2 & _ & HA2 & _).
        destruct (has_name_ref o components names level Ho Hp Hpl HN En c2 t H2 Ht HNm2) as (n2 & E2).
        refine (behind_unfolds o custom config routes components d names level t Ho Hp Hs Hpl HN G Ht c HF n c2 H2 HB2 n2 x E2 _).
        rewrite (HX HA2 (no_dot_unknown _ (proj1 (Hpl c2 H2)) HA2) ("#/components/schemas/" ++ n2)); auto.
        unfold makeComponentRef. now rewrite E2. }
      destruct n as [|n']; cbn [unfolds]; auto. intros c2 H2 P2 N2. exact (K c2 H2 P2 N2 c2 H2 P2 N2).
    - intros c2 H2 HN2. destruct (has_name_ref o components names level Ho Hp Hpl HN En c2 t H2 Ht HN2) as (n2 & E2).
      unfold makeComponentRef. rewrite E2. eauto.
  Qed.

  (** The properties of the schema of a struct are its members. *)
  Lemma members_portrayed p fs c site : te_pkg env id0 = Some p -> te_under env id0 = GStruct fs ->
    typeMapping custom (te_name env id0) (spoken main p) = None ->
    (forall f, In f fs -> gf_exported f = true -> gf_embedded f = false) ->
    In c components -> f_name c = te_name env id0 -> f_package c = spoken main p ->
    exists s, componentToSchema (typeMapping custom) o names t site c = Some s /\
      (forall n sc, In (n, sc) (s_props s) -> exists f, In f fs /\ member t f n /\ portrays env custom main t d (gf_type f) sc) /\
      (forall f n, In f fs -> member t f n -> exists sc, In (n, sc) (s_props s) /\ portrays env custom main t d (gf_type f) sc).
  Proof.
    intros Hp Hu HM NE Hc Nc Pc. assert (R0 : reach env true (GNamed id0) (GNamed id0)) by constructor.
    assert (C : component_of env main id0 c) by (eapply (component_known env main used components (GNamed id0)); eauto).
    assert (HM' : typeMapping custom (f_name c) (f_package c) = None) by (now rewrite Nc, Pc).
    destruct (reached env custom main t used components (GNamed id0) Hdist Hall Htr id0 R0) as (p' & c' & K & _).
    assert (p' = p) by (destruct K; congruence). subst p'. clear c'.
    assert (FF := faithful_reached env custom main t used components (GNamed id0) Hown Hdist Hmap Ht Hall Htr id0 c R0 Hc C).
    destruct FF as (_ & HD & _ & _).
    assert (Hm : map_bindings (f_structFields c)) by (apply parsed_map_bindings; exact (parsed_all env main used components Hown Hdist c Hc)).
    destruct (componentToSchema (typeMapping custom) o names t site c) as [s|] eqn:Es; [|exfalso; apply (component_schema_iff custom o names t site c Ho Hm) in HD; auto].
    exists s. split; auto.
    destruct (unmapped env custom main t (GNamed id0) Htr id0 p c R0 K C HM) as [(fs' & Hu' & _ & Ty & HF & _)|(_ & X)].
    2:{ exfalso. rewrite Hu in X. destruct X as [(b & k & ty & X & _)|[(X & _)|[(e & n & X & _)|[(l & e & n & X & _)|(k & e & n & X & _)]]]]; discriminate X. }
    assert (fs' = fs) by congruence. subst fs'.
    destruct (plain_props (typeMapping custom) o names t site c s Ho) as (A1 & A2 & A3); auto.
    { intros k g I. destruct (HF k g I) as (f & If & Xf & Ff). rewrite (proj1 (field_of_parts _ _ _ _ _ _ Ff)). auto. }
    assert (SH : forall k, shows t (refers env custom main t d k) (GStruct fs) s).
    { intros k. rewrite <- Hu. eapply (component_shows env custom main t used components d (GNamed id0)); eauto.
      - eapply (all_leads env custom main t used components d (GNamed id0)); eauto.
      - now apply component_fits with (site := site). }
    split.
    - intros n sc I. assert (S0 := SH 0). inversion S0 as [| | | | | |fs' s' _ _ P1 _ _|]; subst fs' s'.
      destruct (proj1 (P1 n)) as (f & If & M); [rewrite A2; apply in_map_iff; exists (n, sc); auto|]. exists f. split; auto. split; auto.
      intros k. assert (Sk := SH k). inversion Sk as [| | | | | |fs' s' _ _ _ P2 _|]; subst fs' s'.
      destruct (P2 f n If M) as (sc' & I' & H). rewrite A1 in I'. now rewrite (nodup_fst _ _ _ _ A3 I I').
    - intros f n If M. assert (S0 := SH 0). inversion S0 as [| | | | | |fs' s' _ _ _ P2 _|]; subst fs' s'.
      destruct (P2 f n If M) as (sc & I & _). rewrite A1 in I. exists sc. split; auto.
      intros k. assert (Sk := SH k). inversion Sk as [| | | | | |fs' s' _ _ _ P3 _|]; subst fs' s'.
      destruct (P3 f n If M) as (sc' & I' & H). rewrite A1 in I'. now rewrite (nodup_fst _ _ _ _ A3 I I').
  Qed.
End Bound.

(** ** Calls *)
Section Called.
  Context (co : code).

  Lemma text_one f e s s' : text_of co f e s -> text_of co f e s' -> s = s'.
  Proof.
    intros H K. destruct (text_value co f e s H) as (N & F). destruct (text_value co f e s' K) as (N' & F').
    specialize (F (max N N') (Nat.le_max_l _ _)). specialize (F' (max N N') (Nat.le_max_r _ _)). congruence.
  Qed.

  Definition asked (T : gtype) (n : string) : Param :=
    match T with GSlice _ => str_param n true false | GMap _ _ => str_param n false true | _ => str_param n false false end.

  Lemma query_call f m args es regs p : context_call co f m args es regs -> In (EQuery p) es ->
    exists a rest, args = a :: rest /\
      ((exists T n, In (m, T) query_readers /\ text_of co f a n /\ p = asked T n) \/
       (exists x, In m query_binders /\ value_of co f a regs x /\ p = bound_to x)).
  Proof.
    intros C I. destruct C as [n c a' b' r z' x rg Hin Hs Hv|n typ c a' r z' Hin Hs|n ev a' r s Hin Hs|n ev a' r x rg Hin Hv|n ar Hno].
    - destruct I as [I|[]]. discriminate.
    - destruct I as [I|[]]. discriminate.
    - exists a', r. split; auto. left. destruct I as [I|[]]. cbn in Hin.
      repeat (destruct Hin as [Hin|Hin]; [injection Hin as <- <-; first [discriminate I|injection I as <-;
        first [exists string_type, s; split; [cbn; tauto|split; [exact Hs|reflexivity]]
              |exists (GSlice string_type), s; split; [cbn; tauto|split; [exact Hs|reflexivity]]
              |exists (GMap string_type string_type), s; split; [cbn; tauto|split; [exact Hs|reflexivity]]]]|]). destruct Hin.
    - exists a', r. split; auto. right. exists x. assert (X : In n query_binders /\ p = bound_to x); [|tauto].
      cbn in Hin. repeat (destruct Hin as [Hin|Hin]; [injection Hin as <- <-; cbn in I;
        repeat (destruct I as [I|I]; [first [discriminate I|injection I as <-; split; [cbn; tauto|reflexivity]]|]); destruct I|]).
      destruct Hin.
    - destruct I.
  Qed.

  Lemma binder_event f m a rest es regs : In m query_binders -> context_call co f m (a :: rest) es regs ->
    exists x, In (EQuery (bound_to x)) es /\ value_of co f a regs x.
  Proof.
    intros R C. inversion C as [n c a' b' r z' x rg Hin Hs Hv|n typ c a' r z' Hin Hs|n ev a' r s Hin Hs|n ev a' r x rg Hin Hv|n ar Hno]; subst.
    - exfalso. apply (in_map fst) in Hin. cbn in R, Hin. intuition (subst; discriminate).
    - exfalso. apply (in_map fst) in Hin. cbn in R, Hin. intuition (subst; discriminate).
    - exfalso. apply (in_map fst) in Hin. cbn in R, Hin. intuition (subst; discriminate).
    - exists x. split; auto. clear C Hv. cbn in R, Hin.
      repeat (destruct R as [R|R]; [subst m;
        repeat (destruct Hin as [Hin|Hin]; [first [discriminate Hin|injection Hin as <-; cbn; tauto]|]); destruct Hin|]). destruct R.
    - exfalso. apply Hno. unfold documented_methods. rewrite !in_app_iff. cbn in R |- *. intuition (subst; tauto).
  Qed.

  Lemma reader_event f m T n a rest es regs : In (m, T) query_readers -> text_of co f a n -> context_call co f m (a :: rest) es regs ->
    In (EQuery (asked T n)) es.
  Proof.
    intros R S C. inversion C as [n' c a' b' r z' x rg Hin Hs Hv|n' typ c a' r z' Hin Hs|n' ev a' r s Hin Hs|n' ev a' r x rg Hin Hv|n' ar Hno]; subst.
    - exfalso. apply (in_map fst) in R, Hin. cbn in R, Hin. intuition (subst; discriminate).
    - exfalso. apply (in_map fst) in R, Hin. cbn in R, Hin. intuition (subst; discriminate).
    - rewrite <- (text_one f a n s S Hs). clear C Hs S. cbn in R, Hin.
      repeat (destruct R as [R|R]; [injection R as <- <-;
        repeat (destruct Hin as [Hin|Hin]; [first [discriminate Hin|injection Hin as <-; cbn; tauto]|]); destruct Hin|]). destruct R.
    - exfalso. apply (in_map fst) in R, Hin. cbn in R, Hin. intuition (subst; discriminate).
    - exfalso. apply Hno. unfold documented_methods. rewrite !in_app_iff. apply (in_map fst) in R. cbn in R |- *. intuition (subst; tauto).
  Qed.
End Called.

(** ** Documents *)
Lemma op_queries o custom config routes components names0 d names r op :
  valid_orders o -> generated o custom config routes components names0 d names ->
  distinct_routes routes -> (forall r, In r routes -> gin_path (rt_path r)) ->
  In r routes -> S_OpenAPI.documents d r op ->
  exists site, forall q, (In q (op_parameters op) /\ pa_in q = "query") <->
    In q (queryParams (typeMapping custom) o names components site 0 (rt_queryParams r)).
Proof.
  intros Hv G HN Hg Hr [Ho _]. destruct (documents_op_at _ _ _ _ _ _ _ _ _ _ G HN Hg Hr Ho) as (i & ->).
  unfold op_at, operationOf. cbn [op_parameters]. pose proof Hv as (_ & _ & _ & _ & Hso).
  destruct (Hso ["route"; itoa (Z.of_nat i)] (simpleParams names URIBindingTag "path" (rt_pathParams r)
                   ++ simpleParams names HeaderBindingTag "header" (rt_reqHeaders r)
                   ++ queryParams (typeMapping custom) o names components ["route"; itoa (Z.of_nat i)] 0 (rt_queryParams r))%list) as [HP _].
  exists ["route"; itoa (Z.of_nat i)]. intros q. split.
  - intros (H & Q). apply (Permutation_in _ (Permutation_sym HP)) in H. rewrite !in_app_iff in H. destruct H as [H|[H|H]]; auto.
    + apply simple_style in H; [|discriminate]. destruct H. congruence.
    + apply simple_style in H; [|discriminate]. destruct H. congruence.
  - intros H. split.
    + apply (Permutation_in _ HP). rewrite !in_app_iff. auto.
    + apply query_params_of in H as (p & j & _ & H). now apply query_style in H.
Qed.

(** A parameter read by its name. *)
Lemma asked_schema env custom main d names m T n : In (m, T) query_readers ->
  exists s, mapParamToSchema names FormBindingTag (cleanParam main (asked T n)) = Some s /\ portrays env custom main "form" d T s.
Proof.
  intros R. assert (Ty : f_type (cleanField main (field_of_type "string")) = "string") by (apply clean_plain; reflexivity).
  assert (B : forall k, shows "form" (refers env custom main "form" d k) string_type (mapPredefinedTypeFormat "string")).
  { intros k. apply sh_basic with (ty := "string"); [cbn; tauto|reflexivity|reflexivity]. }
  assert (X : T = string_type \/ T = GSlice string_type \/ T = GMap string_type string_type).
  { cbn in R. intuition (match goal with H : (_, _) = (_, _) |- _ => injection H as <- <- end; auto). }
  destruct X as [-> |[-> | ->]]; unfold mapParamToSchema, asked, cleanParam, str_param; cbn [p_isBound p_isArray p_isMap p_field p_name string_type]; rewrite Ty;
    (eexists; split; [reflexivity|]); intros k.
  - exact (B k).
  - eapply sh_slice; [reflexivity|reflexivity|reflexivity|exact (B k)].
  - eapply sh_map; [reflexivity|reflexivity|reflexivity|exact (B k)].
Qed.

Lemma asked_query tm o names comps site main m T n s : In (m, T) query_readers ->
  mapParamToSchema names FormBindingTag (cleanParam main (asked T n)) = Some s ->
  exists q, queryParam tm o names comps site (cleanParam main (asked T n)) = [q] /\
    pa_in q = "query" /\ pa_name q = n /\ pa_required q = false /\ pa_schema q = s.
Proof.
  intros R E. unfold queryParam. rewrite E.
  assert (X : p_isBound (cleanParam main (asked T n)) = false /\ p_name (cleanParam main (asked T n)) = n /\ p_isRequired (cleanParam main (asked T n)) = false)
    by (cbn in R; intuition (match goal with H : (_, _) = (_, _) |- _ => injection H as <- <- end; reflexivity)).
  destruct X as (-> & -> & ->). destruct (getQueryParamStyle s). eexists. split; [reflexivity|]. cbn. auto.
Qed.

Section Document.
  Context (co : code) (home : nat -> option (file * string * funcref)).
  Notation env := (co_types co).
  Context (o : Orders) (custom : list (string * TypeFormat)) (config : option Config) (routes : list Route) (main : string)
          (comps : list Field) (d : Document) (names : list (string * string)) (level : string -> nat).
  Hypothesis Ho : valid_orders o.
  Hypothesis HP : no_named_pointers co.
  Hypothesis HD : distinct_types env main (documented co).
  Hypothesis Hname : nameable env main (documented co) level.
  Hypothesis Hmap : named_mappings custom.
  Hypothesis Ow : own_comps co comps.
  Hypothesis G : generated o custom config routes (cleanComponents main comps) [] d names.
  Context (ctx : string) (f : file) (g : funcref) (regs : list Result) (l : list Field).
  Notation body := (fs_body (co_func co g)).
  Hypothesis Hregs : incl (register l regs) comps.

  Lemma form_tag : In "form" BindingTags.
  Proof. cbn. tauto. Qed.

  (** The parameters of a struct that the query is bound to. *)
  Lemma bound_queries site m args f0 a regs' x T fs : calls co home ctx f body m args f0 -> In a args ->
    value_of co f0 a regs' x -> incl regs' regs -> typed co f0 a T -> transparent env custom main "form" T -> query_struct env custom main T fs ->
    let ps := queryParam (typeMapping custom) o names (cleanComponents main comps) site (cleanParam main (bound_to x)) in
    (forall q, In q ps -> exists fl, In fl fs /\ member "form" fl (pa_name q) /\ pa_required q = false /\ portrays env custom main "form" d (gf_type fl) (pa_schema q)) /\
    (forall fl n, In fl fs -> member "form" fl n -> exists q, In q ps /\ pa_name q = n /\ pa_required q = false /\ portrays env custom main "form" d (gf_type fl) (pa_schema q)).
  Proof.
    intros C I V Ir Ty Tr (id0 & p & B & Hp & Hu & HM & NE).
    destruct (value_described co home o custom config routes main "form" comps d names level Ho HP HD Hname Hmap Ow G form_tag ctx f g regs l Hregs
                m args f0 a regs' x T C I V Ir Ty Tr) as (s0 & S0 & _).
    destruct Tr as (VT & TR). destruct (value_typed co _ _ _ _ _ HP V Ty) as (n & r & E & -> & T1 & ET & B1). rewrite B in E, B1.
    assert (Dc : forall id, reach env true (GNamed id0) (GNamed id) -> documented co id).
    { intros id R. rewrite <- B1 in R. eapply argument_documented; eauto. constructor. }
    assert (Hown : forall c, In c (cleanComponents main comps) -> exists id, documented co id /\ component_of env main id c)
      by (intros c Ic; eapply cleaned_own; eauto).
    assert (Hall : forall id p, reach env true (GNamed id0) (GNamed id) -> te_pkg env id = Some p ->
      documented co id /\ exists c, In c (cleanComponents main comps) /\ component_of env main id c).
    { intros id q R Hq. split; auto. eapply reached_there; eauto. }
    assert (Htr : forall id, reach env true (GNamed id0) (GNamed id) -> plain_named env custom main "form" id).
    { intros id R. apply TR. apply reach_behind; [discriminate|]. now rewrite B. }
    assert (R0 : reach env true (GNamed id0) (GNamed id0)) by constructor.
    (* the field is the name of the type *)
    assert (FK : flat_kin env (GNamed id0)).
    { apply flat_flat_kin; [repeat constructor|]. intros id R.
      exact (good_ids env custom main "form" (documented co) (cleanComponents main comps) (GNamed id0) HD Hall Htr (GNamed id0) R0 id R). }
    destruct (type_looks env main (GNamed id0) n true _ regs' r (ParseResultToField r) FK E) as (L & _ & _); [unfold same_type; repeat split|].
    destruct (reached env custom main "form" (documented co) (cleanComponents main comps) (GNamed id0) HD Hall Htr id0 R0) as (p' & c0 & K & Hc0 & C0 & Nc0 & Pc0).
    assert (p' = p) by (destruct K; congruence). subst p'. assert (NA : ~ In (te_name env id0) AcceptedTypes) by apply K.
    assert (XF : f_type (cleanField main (ParseResultToField r)) = te_name env id0 /\ f_package (cleanField main (ParseResultToField r)) = spoken main p).
    { inversion L as [T' m' q g' KT Ty' W| | |]; subst. inversion KT as [| |? q' Hq| ]; subst. split; auto. rewrite W; congruence. }
    destruct XF as (XT & XP).
    cbv zeta. unfold queryParam.
    change (mapParamToSchema names FormBindingTag (cleanParam main (bound_to (ParseResultToField r)))) with (mapFieldToSchema names "form" (cleanField main (ParseResultToField r))).
    rewrite S0. cbn [p_isBound cleanParam bound_to p_field]. rewrite XT, XP.
    destruct (findComponentByPackageAndType (cleanComponents main comps) (spoken main p) (te_name env id0)) as [c|] eqn:Ec.
    2:{ exfalso. unfold findComponentByPackageAndType in Ec. apply (find_none _ _ Ec) in Hc0. rewrite Nc0, Pc0, !String.eqb_refl in Hc0. discriminate. }
    apply find_component in Ec as (Hc & Pc & Nc).
    destruct (members_portrayed env custom main "form" (documented co) level o config routes (cleanComponents main comps) d names id0) with (p := p) (fs := fs) (c := c) (site := site)
      as (s & Es & S1 & S2); auto using form_tag.
    { now apply (cleaned_nodup co). }
    unfold FormBindingTag. rewrite Es. pose proof Ho as (_ & _ & _ & Hpr & _). split.
    - intros q Iq. apply in_map_iff in Iq as ((n' & sc) & <- & Iq). apply (Permutation_in _ (Permutation_sym (Hpr site _))) in Iq.
      cbn [fst snd]. destruct (S1 n' sc Iq) as (fl & X1 & X2 & X3). exists fl. destruct (getQueryParamStyle sc). cbn. auto.
    - intros fl n' If M. destruct (S2 fl n' If M) as (sc & X1 & X2).
      eexists. split; [apply in_map_iff; exists (n', sc); split; [reflexivity|apply (Permutation_in _ (Hpr site _)), X1]|].
      cbn [fst snd]. destruct (getQueryParamStyle sc). cbn. auto.
  Qed.

  Hypothesis Ag : scopes_agree co home.
  Context (es : list S_Parse.event) (last : bool).
  Hypothesis HS : says co home ctx f body es regs last.
  Context (doc : string) (id : option string) (i : GinRoute) (fl : string) (op : Operation).
  Hypothesis DR : distinct_routes routes.
  Hypothesis GP : forall r, In r routes -> gin_path (rt_path r).
  Notation r := (cleanRoute main (S_Parse.analysed doc id es (entry_route i fl))).
  Hypothesis Ir : In r routes.
  Hypothesis D : S_OpenAPI.documents d r op.

  Lemma queries_described :
    (forall T, binds_query co home ctx f body T -> transparent env custom main "form" T /\ exists fs, query_struct env custom main T fs) ->
    (forall n T, reads_query co home ctx f body n T -> exists s, has_query op false n s /\ portrays env custom main "form" d T s) /\
    (forall T fs fd n, binds_query co home ctx f body T -> query_struct env custom main T fs -> In fd fs -> member "form" fd n ->
       exists s, has_query op false n s /\ portrays env custom main "form" d (gf_type fd) s) /\
    (forall required n s, has_query op required n s ->
       (exists T, reads_query co home ctx f body n T /\ portrays env custom main "form" d T s) \/
       (exists T fs fd, binds_query co home ctx f body T /\ query_struct env custom main T fs /\ In fd fs /\ member "form" fd n /\
          portrays env custom main "form" d (gf_type fd) s)).
  Proof.
    intros All. destruct (op_queries _ _ _ _ _ _ _ _ _ _ Ho G DR GP Ir D) as (site & OQ).
    assert (QP : rt_queryParams r = map (cleanParam main) (queries_of es)).
    { unfold S_Parse.analysed, comment_of, with_op. destruct id, (String.eqb (FormatDoc doc) ""); reflexivity. }
    rewrite QP in OQ. split; [|split].
    - intros n T (m & a & rest & f0 & C & R & Tx). destruct (calls_said co home _ _ _ _ _ _ Ag C _ _ _ HS) as (es' & regs' & Cc & I1 & I2).
      assert (J := I1 _ (reader_event co _ _ _ _ _ _ _ _ R Tx Cc)). apply queries_in in J. apply (in_map (cleanParam main)) in J.
      destruct (asked_schema env custom main d names m T n R) as (s & E & P).
      destruct (query_params_all (typeMapping custom) o names (cleanComponents main comps) site _ _ 0 J) as (j & Hj).
      destruct (asked_query (typeMapping custom) o names (cleanComponents main comps) (itoa (Z.of_nat j) :: site) main m T n s R E) as (q & Eq & X).
      exists s. split; auto. rewrite Eq in Hj. specialize (Hj q (or_introl eq_refl)). apply OQ in Hj as (Hj & _). exists q. auto.
    - intros T fs fd n (m & a & rest & f0 & C & R & Tx) QS If M. destruct (calls_said co home _ _ _ _ _ _ Ag C _ _ _ HS) as (es' & regs' & Cc & I1 & I2).
      destruct (binder_event co _ _ _ _ _ _ R Cc) as (x & J & V). apply I1, queries_in in J. apply (in_map (cleanParam main)) in J.
      destruct (query_params_all (typeMapping custom) o names (cleanComponents main comps) site _ _ 0 J) as (j & Hj).
      assert (BQ : binds_query co home ctx f body T) by (exists m, a, rest, f0; auto).
      destruct (bound_queries (itoa (Z.of_nat j) :: site) m (a :: rest) f0 a regs' x T fs C ltac:(cbn; auto) V I2 Tx (proj1 (All T BQ)) QS) as (_ & H).
      destruct (H fd n If M) as (q & Iq & X1 & X2 & X3). apply Hj, OQ in Iq as (Iq & Y). exists (pa_schema q). split; auto. exists q. auto.
    - intros rq n s (q & Iq & Q & <- & _ & <-).
      destruct (query_params_of _ _ _ _ _ _ _ _ (proj1 (OQ q) (conj Iq Q))) as (p & j & Ip & Jq).
      apply in_map_iff in Ip as (p0 & <- & Ip). apply queries_in in Ip.
      destruct (said_called co home _ _ _ _ _ _ HS _ Ip) as (m & args & f0 & es' & regs' & C & Cc & J & K).
      destruct (query_call co _ _ _ _ _ _ Cc J) as (a & rest & -> & [(T & n' & R & Tx & ->)|(x & R & V & ->)]).
      + left. exists T. destruct (asked_schema env custom main d names m T n' R) as (s & E & P).
        destruct (asked_query (typeMapping custom) o names (cleanComponents main comps) (itoa (Z.of_nat j) :: site) main m T n' s R E) as (q' & Eq & _ & X1 & _ & X2).
        rewrite Eq in Jq. destruct Jq as [<-|[]]. rewrite X1, X2. split; auto. exists m, a, rest, f0. auto.
      + right. assert (V' := V). destruct V' as (T & nn & rr & Ty & _).
        assert (BQ : binds_query co home ctx f body T) by (exists m, a, rest, f0; auto). destruct (All T BQ) as (Tr & fs & QS).
        destruct (bound_queries (itoa (Z.of_nat j) :: site) m (a :: rest) f0 a regs' x T fs C ltac:(cbn; auto) V K Ty Tr QS) as (H & _).
        destruct (H q Jq) as (fd & X1 & X2 & X3 & X4). exists T, fs, fd. auto.
  Qed.
End Document.
