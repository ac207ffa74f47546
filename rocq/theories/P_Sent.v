(** Proofs about the schemas of what is sent and received. *)
From Coq Require Import List String Ascii Bool ZArith Arith Lia Relations Relation_Operators.
From Verif Require Import BaseStr BaseMap M_Types M_Paths M_Tags M_Collect S_Collect P_Collect M_TypeTrav S_TypeTrav P_TypeTrav M_Value S_Value P_Value
  M_Clean M_OpenAPI S_Names S_OpenAPI M_Parse S_Parse P_Parse P_Parse2 P_Parse3 P_Comps M_Resolve S_Resolve P_Resolve S_Typed P_Typed S_Sends P_Sends.
From Verif Require Import M_FS M_Service S_Paths S_Service S_Whole P_Told P_OpenAPI Props_OpenAPI.
Import ListNotations.
Local Open Scope string_scope.

(** ** Pointers *)
Lemma reach_behind env T X : (forall e, X <> GPointer e) -> reach env true T X <-> reach env true (behind T) X.
Proof.
  intros N. induction T; try reflexivity. cbn [behind]. rewrite <- IHT. split; intros H.
  - inversion H as [|y z P R]; subst; [now elim (N T)|]. inversion P; subst. exact R.
  - econstructor; [constructor|exact H].
Qed.
Lemma shows_behind t named T s : shows t named T s <-> shows t named (behind T) s.
Proof.
  induction T; try reflexivity. cbn [behind]. rewrite <- IHT. split; intros H; [now inversion H|now constructor].
Qed.
Lemma portrays_behind env custom main t d T s : portrays env custom main t d T s <-> portrays env custom main t d (behind T) s.
Proof. unfold portrays. split; intros H n; [rewrite <- shows_behind|rewrite shows_behind]; apply H. Qed.

Lemma bodies_in p es : In p (bodies_of es) <-> In (EBody p) es.
Proof. unfold bodies_of. rewrite in_flat_map. split; [intros (e & I & H); destruct e; cbn in H; try contradiction; destruct H as [<-|[]]; auto|intros I; exists (EBody p); cbn; auto]. Qed.

Section Sent.
  Context (co : code) (home : nat -> option (file * string * funcref)).
  Notation env := (co_types co).

  (** ** The components *)
  Definition own_comps (l : list Field) : Prop :=
    (forall c, In c l -> exists id x, documented co id /\ definition_of env id x /\ c = ParseResultToField x) /\ NoDup (map comp_key l).

  Lemma own_nil : own_comps [].
  Proof. split; [intros c []|constructor]. Qed.
  Lemma own_add l x : own_comps l -> registered_type co x -> own_comps (addComponent l x).
  Proof.
    intros (O & ND) (id & Dc & Df). split.
    - intros c I. destruct (register_from [x] l c) as [J|(y & [<-|[]] & ->)]; eauto.
    - unfold addComponent. destruct (String.eqb _ ""); auto. now apply add_component_nodup.
  Qed.

  Section Distinct.
    Context (main : string).
    Hypothesis HD : distinct_types env main (documented co).

    Lemma own_key id x : documented co id -> definition_of env id x -> exists p, te_pkg env id = Some p /\ p <> "" /\
      f_name (ParseResultToField x) = te_name env id /\ f_package (ParseResultToField x) = p /\
      f_name (cleanField main (ParseResultToField x)) = te_name env id /\ f_package (cleanField main (ParseResultToField x)) = spoken main p.
    Proof.
      intros Dc Df. assert (A : analysed env id) by (destruct Df as (p & n & l & u & Hp & E & _); exists p, n, l, u; auto).
      assert (A' := A). destruct A' as (p & _ & _ & _ & Hp & _). destruct (proj1 HD id p Dc A Hp) as (P0 & N0 & _ & H0 & _).
      exists p. destruct (definition_key _ _ _ _ Df Hp N0 H0) as (K1 & K2).
      destruct (component_key env main id _ p ltac:(exists x; split; [exact Df|reflexivity]) Hp N0 H0) as (K3 & K4). auto 10.
    Qed.
    Lemma own_one id x id' x' : documented co id -> definition_of env id x -> documented co id' -> definition_of env id' x' ->
      f_name (cleanField main (ParseResultToField x)) = f_name (cleanField main (ParseResultToField x')) ->
      f_package (cleanField main (ParseResultToField x)) = f_package (cleanField main (ParseResultToField x')) -> id = id' /\ x = x'.
    Proof.
      intros D1 F1 D2 F2 N P. destruct (own_key _ _ D1 F1) as (p & Hp & _ & _ & _ & N1 & P1). destruct (own_key _ _ D2 F2) as (q & Hq & _ & _ & _ & N2 & P2).
      assert (A1 : analysed env id) by (destruct F1 as (p1 & n & l & u & Hp1 & E & _); exists p1, n, l, u; auto).
      assert (A2 : analysed env id') by (destruct F2 as (p1 & n & l & u & Hp1 & E & _); exists p1, n, l, u; auto).
      assert (id = id') by (apply (proj2 HD id id' p q); auto; congruence). subst id'. split; auto. eapply definition_det; eauto.
    Qed.

    Lemma cleaned_own l : own_comps l -> forall c, In c (cleanComponents main l) -> exists id, documented co id /\ component_of env main id c.
    Proof.
      intros (O & _) c I. apply in_map_iff in I as (c0 & <- & I). destruct (O _ I) as (id & x & Dc & Df & ->). exists id. split; auto. exists x. auto.
    Qed.
    Lemma cleaned_nodup l : own_comps l -> NoDup (map comp_key (cleanComponents main l)).
    Proof.
      intros (O & ND). induction l as [|c l IH]; cbn; [constructor|]. cbn in ND. inversion ND as [|? ? NI ND']; subst. constructor.
      - intros I. apply NI. unfold cleanComponents in I. rewrite map_map in I. apply in_map_iff in I as (c2 & K & I).
        destruct (O c (or_introl eq_refl)) as (id & x & Dc & Df & ->). destruct (O c2 (or_intror I)) as (id' & x' & Dc' & Df' & ->).
        injection K as K1 K2. destruct (own_one _ _ _ _ Dc Df Dc' Df' (eq_sym K1) (eq_sym K2)) as (_ & <-). now apply in_map.
      - apply IH; auto. intros c' I. apply O. now right.
    Qed.

    (** Every type behind what is analysed is a component. *)
    Lemma reached_there n pkg T regs' r regs l comps id p :
      TypeResult n env true pkg "" T = (regs', Ok r) -> incl regs' regs -> own_comps comps -> incl (register l regs) comps ->
      reach env true T (GNamed id) -> documented co id -> te_pkg env id = Some p ->
      exists c, In c (cleanComponents main comps) /\ component_of env main id c.
    Proof.
      intros E I1 (O & _) I2 R Dc Hp. destruct (named_registered _ _ _ _ _ _ _ _ _ E R Hp) as (x & Ix & Df).
      destruct (own_key id x Dc Df) as (q & Hq & Q0 & N1 & P1 & _).
      destruct (register_has regs l x (I1 _ Ix)) as (y & J & K); [congruence|]. apply I2 in J. destruct (O y J) as (id' & x' & Dc' & Df' & ->).
      destruct (own_key id' x' Dc' Df') as (q' & Hq' & Q0' & N1' & P1' & _).
      assert (A1 : analysed env id) by (destruct Df as (p1 & m & l1 & u & Hp1 & E1 & _); exists p1, m, l1, u; auto).
      assert (A2 : analysed env id') by (destruct Df' as (p1 & m & l1 & u & Hp1 & E1 & _); exists p1, m, l1, u; auto).
      injection K as K1 K2. assert (id' = id) by (apply (proj2 HD id' id q' q); auto; congruence). subst id'.
      exists (cleanField main (ParseResultToField x')). split; [now apply in_map|]. exists x'. auto.
    Qed.
  End Distinct.

  (** ** Values *)
  Lemma value_typed f e regs x T : no_named_pointers co -> value_of co f e regs x -> typed co f e T ->
    exists n r, TypeResult n env true (Some (path_of co (pkg_of co f))) "" (behind T) = (regs, Ok r) /\ x = ParseResultToField r /\
      exists t, ExprType co f e = Ok t /\ behind t = behind T.
  Proof.
    intros P (t & n & r & Ty & S & K & E & ->) HT. destruct (static_type co f e t K P S Ty) as (t' & Et & B).
    assert (B' := static_type_sound co f e T t' K P HT Et).
    destruct (result_same env (Some (path_of co (pkg_of co f))) t (behind T) n regs r) as (N & HN).
    - rewrite <- B, B'. clear. induction T; auto.
    - exact E.
    - exists N, r. split; [apply HN, le_n|]. split; [reflexivity|]. exists t'. auto.
  Qed.

  (** The calls are in the code. *)
  Lemma calls_within ctx f e name args f0 : calls co home ctx f e name args f0 -> forall h, within e (fs_body (co_func co h)) ->
    exists h' fn o recv results, within (ECall fn args) (fs_body (co_func co h')) /\ denotes co f0 fn o /\
      co_obj co o = TFunc name (Some recv) results /\ gin_context co recv.
  Proof.
    intros C. induction C as [ctx f fn args o name recv results M D Eo Gc|ctx f p e name args f0 I C IH
                             |ctx f fn args f' g ctx' name args' f0 M Cf L Fc C IH]; intros h W.
    - exists h, fn, o, recv, results. auto.
    - apply (IH h). eapply within_trans; [|exact W]. econstructor; [exact I|constructor].
    - apply (IH g). constructor.
  Qed.
  Lemma argument_documented ctx f e name args f0 h a t id : calls co home ctx f e name args f0 -> within e (fs_body (co_func co h)) ->
    In a args -> ExprType co f0 a = Ok t -> reach env true (behind t) (GNamed id) -> documented co id.
  Proof.
    intros C W I E R. apply reach_behind in R; [|discriminate].
    destruct (calls_within _ _ _ _ _ _ C h W) as (h' & fn & o & recv & results & W' & D & Eo & Gc).
    destruct (type_found co f0 a t E) as [(y & Wy & A)|NL]; [|now elim (NL id)].
    exists t. split; auto. exists h', f0, fn, args, o, name, recv, results, a, y. auto 10.
  Qed.

  Lemma value_behind T : value_type T -> value_type (behind T).
  Proof.
    intros H. inversion H as [e El|e El B|k e Ek El]; subst; try (constructor; assumption). constructor.
    clear H. induction El; cbn; try (econstructor; eassumption). exact IHEl.
  Qed.
  Lemma anything_behind T : anything (behind T) -> anything T.
  Proof. induction T; cbn; intros H; auto. constructor. auto. Qed.

  (** ** Documents *)
  Section Document.
    Context (o : Orders) (custom : list (string * TypeFormat)) (config : option Config) (routes : list Route) (main t : string)
            (comps : list Field) (d : Document) (names : list (string * string)) (level : string -> nat).
    Hypothesis Ho : valid_orders o.
    Hypothesis HP : no_named_pointers co.
    Hypothesis HD : distinct_types env main (documented co).
    Hypothesis Hname : nameable env main (documented co) level.
    Hypothesis Hmap : named_mappings custom.
    Hypothesis Ow : own_comps comps.
    Hypothesis G : generated o custom config routes (cleanComponents main comps) [] d names.
    Hypothesis Ht : In t BindingTags.
    Context (ctx : string) (f : file) (g : funcref) (regs : list Result) (l : list Field).
    Notation body := (fs_body (co_func co g)).
    Hypothesis Hregs : incl (register l regs) comps.

    Lemma value_described name args f0 a regs' x T : calls co home ctx f body name args f0 -> In a args ->
      value_of co f0 a regs' x -> incl regs' regs -> typed co f0 a T -> transparent env custom main t T ->
      exists s, mapFieldToSchema names t (cleanField main x) = Some s /\ portrays env custom main t d T s /\ (~ anything T -> s <> emptySchema).
    Proof.
      intros C I V Ir Ty (VT & TR). destruct (value_typed _ _ _ _ _ HP V Ty) as (n & r & E & -> & T1 & ET & B).
      assert (Dc : forall id, reach env true (behind T) (GNamed id) -> documented co id).
      { intros id R. rewrite <- B in R. eapply argument_documented; eauto. constructor. }
      destruct (value_shows env custom main t (documented co) level o config routes (cleanComponents main comps) d names (behind T)) with
        (fuel := n) (add := true) (pkg := Some (path_of co (pkg_of co f0))) (l := regs') (r := r) (f := cleanField main (ParseResultToField r))
        as (s & S1 & S2 & S3); auto using value_behind.
      - intros c Ic. eapply cleaned_own; eauto.
      - now apply cleaned_nodup.
      - intros id p R Hp. split; auto. eapply reached_there; eauto.
      - intros id R. apply TR. apply reach_behind; [discriminate|exact R].
      - exists s. split; auto. split; [now apply portrays_behind|]. intros NA. apply S3. intros X. apply NA. now apply anything_behind.
    Qed.

    Hypothesis Ag : scopes_agree co home.
    Context (es : list S_Parse.event) (last : bool).
    Hypothesis HS : says co home ctx f body es regs last.
    Context (doc : string) (id : option string) (i : GinRoute) (fl : string) (op : Operation).
    Hypothesis DR : distinct_routes routes.
    Hypothesis GP : forall r, In r routes -> gin_path (rt_path r).
    Notation r := (cleanRoute main (S_Parse.analysed doc id es (entry_route i fl))).
    Hypothesis Ir : In r routes.
    Hypothesis D : S_OpenAPI.documents d r op.

    Lemma encoding_tag content : In (content, t) encodings -> ContentTypeToBindingTag content = t /\ In content (map snd renderers).
    Proof. intros H. cbn in H. repeat (destruct H as [H|H]; [injection H as <- <-; cbn; tauto|]). destruct H. Qed.
    Lemma encoding_decoder content : In (content, t) encodings -> In content (map snd decoders).
    Proof. intros H. cbn in H. repeat (destruct H as [H|H]; [injection H as <- <-; cbn; tauto|]). destruct H. Qed.

    (** One of the types sent with the status and content type is described. *)
    Lemma sent_described z content T : In (content, t) encodings -> sends co home ctx f body z content T ->
      (forall T', sends co home ctx f body z content T' -> transparent env custom main t T' /\ ~ anything T') ->
      exists resp s T', mlookup (itoa z) (op_responses op) = Some resp /\ mlookup content (resp_content resp) = Some s /\
        sends co home ctx f body z content T' /\ portrays env custom main t d T' s.
    Proof.
      intros En (name & a & b & rest & f0 & C & R & St & Ty) All. destruct (encoding_tag _ En) as (Et & Rn).
      assert (RT : rt_returns r = map (cleanReturn main) (AddReturnType [] (returns_of es))).
      { unfold S_Parse.analysed, comment_of, with_op. destruct id, (String.eqb (FormatDoc doc) ""); reflexivity. }
      (* what each return type with this status and content is *)
      assert (Each : forall rt, In rt (rt_returns r) -> r_status rt = z -> r_contentType rt = content ->
        exists s T', mapFieldToSchema names t (r_field rt) = Some s /\ s <> emptySchema /\
          sends co home ctx f body z content T' /\ portrays env custom main t d T' s).
      { intros rt I E1 E2. rewrite RT in I. apply in_map_iff in I as (rt0 & <- & I). cbn in E1, E2.
        destruct (add_return_prefix (returns_of es) []) as (ext & X & Y). rewrite X in I. apply Y, returns_in in I.
        destruct (said_called co home _ _ _ _ _ _ HS _ I) as (nm & ar & f1 & es' & regs' & C' & Cc & J & K).
        destruct (return_call co home _ _ _ _ _ _ Cc J) as (a' & b' & rest' & -> & R' & St' & V'); [now rewrite E2|].
        assert (V := V'). destruct V as (T' & n & q & Ty' & _). rewrite E1, E2 in *.
        assert (Sd : sends co home ctx f body z content T') by (exists nm, a', b', rest', f1; auto).
        destruct (All _ Sd) as (Tr & NA).
        destruct (value_described _ _ _ b' _ _ _ C' ltac:(cbn; auto) V' K Ty' Tr) as (s & S1 & S2 & S3).
        exists s, T'. cbn [r_field cleanReturn]. auto. }
      (* there is one *)
      destruct (calls_said co home _ _ _ _ _ _ Ag C _ _ _ HS) as (es' & regs' & Cc & I1 & I2).
      destruct (render_event co _ _ _ _ _ _ _ _ _ R St Cc) as (x & -> & V).
      specialize (I1 _ (or_introl eq_refl)). apply returns_in in I1. apply (add_return_present _ []) in I1.
      apply in_map_iff in I1 as (rt0 & K & J). unfold ret_key in K. cbn in K.
      assert (Z : r_status rt0 = z /\ r_contentType rt0 = content) by (split; congruence). destruct Z as (Z1 & Z2).
      assert (J' : In (cleanReturn main rt0) (rt_returns r)) by (rewrite RT; now apply in_map).
      destruct (Each _ J' Z1 Z2) as (s & T' & S1 & S2 & _).
      destruct (C21_one_described _ _ _ _ _ _ _ _ _ _ (cleanReturn main rt0) s G DR GP Ir D J') as (resp & s' & rt' & L1 & L2 & J2 & Z3 & Z4 & M); auto.
      - cbn [r_contentType cleanReturn]. now rewrite Z2, Et.
      - cbn [r_status r_contentType cleanReturn] in *. rewrite Z1 in *. rewrite Z2 in *. rewrite Z4, Et in M.
        destruct (Each _ J2 Z3 Z4) as (s2 & T2 & X1 & _ & X2 & X3). rewrite M in X1. injection X1 as <-.
        exists resp, s', T2. auto.
    Qed.

    (** One of the types the body is decoded into is described. *)
    Lemma received_described content T : In (content, t) encodings -> receives co home ctx f body content T ->
      (forall T', receives co home ctx f body content T' -> transparent env custom main t T') ->
      exists bodies s T', op_requestBody op = Some bodies /\ mlookup content bodies = Some s /\
        receives co home ctx f body content T' /\ portrays env custom main t d T' s.
    Proof.
      intros En (name & a & rest & f0 & C & R & Ty) All. destruct (encoding_tag _ En) as (Et & _). assert (Rn := encoding_decoder _ En).
      assert (RT : rt_body r = map (cleanBody main) (bodies_of es)).
      { unfold S_Parse.analysed, comment_of, with_op. destruct id, (String.eqb (FormatDoc doc) ""); reflexivity. }
      assert (Each : forall b, In b (rt_body r) -> b_contentType b = content -> b_name b = "" /\
        exists s T', mapFieldToSchema names t (b_field b) = Some s /\
          receives co home ctx f body content T' /\ portrays env custom main t d T' s).
      { intros b I E2. rewrite RT in I. apply in_map_iff in I as (b0 & <- & I). cbn in E2. apply bodies_in in I.
        destruct (said_called co home _ _ _ _ _ _ HS _ I) as (nm & ar & f1 & es' & regs' & C' & Cc & J & K).
        destruct (body_call co home _ _ _ _ _ _ Cc J) as (a' & rest' & -> & R' & V' & Nm); [now rewrite E2|].
        split; [exact Nm|]. assert (V := V'). destruct V as (T' & n & q & Ty' & _). rewrite E2 in *.
        assert (Sd : receives co home ctx f body content T') by (exists nm, a', rest', f1; auto).
        destruct (value_described _ _ _ a' _ _ _ C' ltac:(cbn; auto) V' K Ty' (All _ Sd)) as (s & S1 & S2 & S3).
        exists s, T'. cbn [b_field cleanBody]. auto. }
      destruct (calls_said co home _ _ _ _ _ _ Ag C _ _ _ HS) as (es' & regs' & Cc & I1 & I2).
      destruct (decoder_event co home _ _ _ _ _ _ _ R Cc) as (x & Ix & V).
      apply I1, bodies_in in Ix. assert (J : In (cleanBody main (body_to content x)) (rt_body r)) by (rewrite RT; now apply in_map).
      destruct (Each _ J eq_refl) as (_ & s & T' & S1 & _).
      destruct (C22_one_described _ _ _ _ _ _ _ _ _ _ (cleanBody main (body_to content x)) s G DR GP Ir D J) as (bodies & b' & s' & L1 & J2 & Z & M & L2).
      - cbn [b_contentType cleanBody body_to]. now rewrite Et.
      - cbn [b_contentType cleanBody body_to] in *. rewrite Et in M.
        destruct (Each _ J2 Z) as (Nm & s2 & T2 & X1 & X2 & X3). rewrite M in X1. injection X1 as <-.
        rewrite Nm in L2. exists bodies, s', T2. auto.
    Qed.
  End Document.
End Sent.
