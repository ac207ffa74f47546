(** Proofs about headers and forms, from the source to the document. *)
From Coq Require Import List String Ascii Bool ZArith Arith Relations Lia Permutation.
From Verif Require Import BaseStr BaseMap M_Types M_Paths M_Tags S_Tags P_Tags M_Collect S_Collect M_Clean S_Clean P_Clean
  M_TypeTrav S_TypeTrav P_TypeTrav P_Fields M_OpenAPI S_Names P_Names S_OpenAPI P_OpenAPI P_Schema S_More P_More S_Refs P_Refs S_Typed P_Typed
  M_Parse S_Parse P_Parse P_Parse2 P_Parse3 P_Parse4 P_Comps M_Service M_Resolve S_Resolve P_Resolve S_Sends P_Sends P_Sent S_Paths S_Service S_Whole P_Told S_Queries P_Query S_Asked
  Props_OpenAPI Props_More.
Import ListNotations.
Local Open Scope string_scope.

(** ** Calls *)
Section Called.
  Context (co : code).

  Lemma reader_says f m ev a rest n es regs : In (m, ev) readers -> (forall ev', In (m, ev') readers -> ev' = ev) ->
    text_of co f a n -> context_call co f m (a :: rest) es regs -> es = [ev n].
  Proof.
    intros R U S C. inversion C as [n' c a' b' r z' x rg Hin Hs Hv|n' typ c a' r z' Hin Hs|n' ev' a' r s Hin Hs|n' ev' a' r x rg Hin Hv|n' ar Hno]; subst.
    - exfalso. apply (in_map fst) in R, Hin. cbn in R, Hin. intuition (subst; discriminate).
    - exfalso. apply (in_map fst) in R, Hin. cbn in R, Hin. intuition (subst; discriminate).
    - rewrite (text_one co f a n s S Hs), (U _ Hin). reflexivity.
    - exfalso. apply (in_map fst) in R, Hin. cbn in R, Hin. intuition (subst; discriminate).
    - exfalso. apply Hno. unfold documented_methods. rewrite !in_app_iff. apply (in_map fst) in R. tauto.
  Qed.
  Lemma reader_one m ev ev' : In (m, ev) readers -> In (m, ev') readers -> ev' = ev.
  Proof.
    intros H K. cbn in H, K.
    repeat (destruct H as [H|H]; [injection H as <- <-; repeat (destruct K as [K|K]; [first [discriminate K|injection K as <-; reflexivity]|]); destruct K|]). destruct H.
  Qed.
  Lemma binder_one m ev ev' : In (m, ev) binders -> In (m, ev') binders -> ev' = ev.
  Proof.
    intros H K. cbn in H, K.
    repeat (destruct H as [H|H]; [injection H as <- <-; repeat (destruct K as [K|K]; [first [discriminate K|injection K as <-; reflexivity]|]); destruct K|]). destruct H.
  Qed.
  Lemma binder_says f m ev a rest es regs : In (m, ev) binders -> context_call co f m (a :: rest) es regs ->
    exists x, es = ev x /\ value_of co f a regs x.
  Proof.
    intros R C. inversion C as [n' c a' b' r z' x rg Hin Hs Hv|n' typ c a' r z' Hin Hs|n' ev' a' r s Hin Hs|n' ev' a' r x rg Hin Hv|n' ar Hno]; subst.
    - exfalso. apply (in_map fst) in R, Hin. cbn in R, Hin. intuition (subst; discriminate).
    - exfalso. apply (in_map fst) in R, Hin. cbn in R, Hin. intuition (subst; discriminate).
    - exfalso. apply (in_map fst) in R, Hin. cbn in R, Hin. intuition (subst; discriminate).
    - exists x. split; auto. now rewrite (binder_one _ _ _ R Hin).
    - exfalso. apply Hno. unfold documented_methods. rewrite !in_app_iff. apply (in_map fst) in R. tauto.
  Qed.
  (** Where an event other than a return comes from. *)
  Lemma event_says f m args es regs e : context_call co f m args es regs -> In e es -> (forall r, e <> EReturn r) ->
    exists a rest, args = a :: rest /\
      ((exists ev n, In (m, ev) readers /\ text_of co f a n /\ e = ev n) \/
       (exists ev x, In (m, ev) binders /\ value_of co f a regs x /\ In e (ev x))).
  Proof.
    intros C I NR. destruct C as [n' c a' b' r z' x rg Hin Hs Hv|n' typ c a' r z' Hin Hs|n' ev' a' r s Hin Hs|n' ev' a' r x rg Hin Hv|n' ar Hno].
    - exfalso. destruct I as [<-|[]]. eapply NR. reflexivity.
    - exfalso. destruct I as [<-|[]]. eapply NR. reflexivity.
    - exists a', r. split; auto. left. destruct I as [<-|[]]. eauto.
    - exists a', r. split; auto. right. eauto.
    - destruct I.
  Qed.
End Called.

(** ** Documents *)
Lemma op_headers o custom config routes components names0 d names r op :
  valid_orders o -> generated o custom config routes components names0 d names ->
  distinct_routes routes -> (forall r, In r routes -> gin_path (rt_path r)) ->
  In r routes -> S_OpenAPI.documents d r op ->
  forall q, (In q (op_parameters op) /\ pa_in q = "header") <-> In q (simpleParams names HeaderBindingTag "header" (rt_reqHeaders r)).
Proof.
  intros Hv G HN Hg Hr [Ho _]. destruct (documents_op_at _ _ _ _ _ _ _ _ _ _ G HN Hg Hr Ho) as (i & ->).
  unfold op_at, operationOf. cbn [op_parameters]. pose proof Hv as (_ & _ & _ & _ & Hso).
  destruct (Hso ["route"; itoa (Z.of_nat i)] (simpleParams names URIBindingTag "path" (rt_pathParams r)
                   ++ simpleParams names HeaderBindingTag "header" (rt_reqHeaders r)
                   ++ queryParams (typeMapping custom) o names components ["route"; itoa (Z.of_nat i)] 0 (rt_queryParams r))%list) as [HP _].
  intros q. split.
  - intros (H & Q). apply (Permutation_in _ (Permutation_sym HP)) in H. rewrite !in_app_iff in H. destruct H as [H|[H|H]]; auto.
    + apply simple_style in H; [|discriminate]. destruct H. congruence.
    + apply query_params_of in H as (p & j & _ & H). apply query_style in H. destruct H as (_ & H & _). congruence.
  - intros H. split.
    + apply (Permutation_in _ HP). rewrite !in_app_iff. auto.
    + apply simple_style in H; [|discriminate]. tauto.
Qed.

Section Document.
  Context (co : code) (home : nat -> option (file * string * funcref)).
  Notation env := (co_types co).
  Context (o : Orders) (custom : list (string * TypeFormat)) (config : option Config) (routes : list Route) (main : string)
          (comps : list Field) (d : Document) (names : list (string * string)).
  Hypothesis Ho : valid_orders o.
  Hypothesis G : generated o custom config routes (cleanComponents main comps) [] d names.
  Context (ctx : string) (f : file) (g : funcref) (regs : list Result) (l : list Field).
  Notation body := (fs_body (co_func co g)).
  Hypothesis Ag : scopes_agree co home.
  Context (es : list S_Parse.event) (last : bool).
  Hypothesis HS : says co home ctx f body es regs last.
  Context (doc : string) (id : option string) (i : GinRoute) (fl : string) (op : Operation).
  Hypothesis DR : distinct_routes routes.
  Hypothesis GP : forall r, In r routes -> gin_path (rt_path r).
  Notation r := (cleanRoute main (S_Parse.analysed doc id es (entry_route i fl))).
  Hypothesis Ir : In r routes.
  Hypothesis D : S_OpenAPI.documents d r op.

  Lemma text_of_string : text_schema (mapPredefinedTypeFormat "string").
  Proof. repeat split. Qed.

  Lemma headers_described :
    (forall n, reads_header co home ctx f body n -> exists s, has_header op false n s /\ text_schema s) /\
    (forall required n s, has_header op required n s ->
       (reads_header co home ctx f body n /\ text_schema s /\ required = false) \/
       (n = "" /\ exists T, binds_header co home ctx f body T)).
  Proof.
    assert (OH := op_headers _ _ _ _ _ _ _ _ _ _ Ho G DR GP Ir D).
    assert (QP : rt_reqHeaders r = reqHeaders_of es).
    { unfold S_Parse.analysed, comment_of, with_op. destruct id, (String.eqb (FormatDoc doc) ""); reflexivity. }
    rewrite QP in OH. split.
    - intros n (m & a & rest & f0 & C & R & Tx). destruct (calls_said co home _ _ _ _ _ _ Ag C _ _ _ HS) as (es' & regs' & Cc & I1 & I2).
      destruct R as [<-|[]].
      assert (In ("GetHeader", fun n => EReqHeader (str_param n false false)) readers) as R by (cbn; tauto).
      rewrite (reader_says co _ _ _ _ _ _ _ _ R (fun ev' => reader_one _ _ _ R) Tx Cc) in I1.
      specialize (I1 _ (or_introl eq_refl)). apply headers_in in I1.
      eexists. split; [|exact text_of_string]. eexists. split; [apply OH, in_flat_map; eexists; split; [exact I1|left; reflexivity]|].
      repeat split.
    - intros rq n s (q & Iq & Q & <- & <- & <-). assert (J := proj1 (OH q) (conj Iq Q)).
      apply in_flat_map in J as (p & Ip & J). apply headers_in in Ip.
      destruct (said_called co home _ _ _ _ _ _ HS _ Ip) as (m & args & f0 & es' & regs' & C & Cc & K & _).
      destruct (event_says co _ _ _ _ _ _ Cc K ltac:(discriminate)) as (a & rest & -> & [(ev & n & R & Tx & E)|(ev & x & R & V & E)]).
      + left. assert (M : m = "GetHeader" /\ p = str_param n false false).
        { cbn in R. repeat (destruct R as [R|R]; [injection R as <- <-; first [discriminate E|injection E as ->; split; reflexivity]|]). destruct R. }
        destruct M as (-> & ->). destruct J as [<-|[]]. cbn. split; [|repeat split].
        exists "GetHeader", a, rest, f0. cbn. auto.
      + right. assert (M : In m header_binders /\ p = bound_to x).
        { cbn in R. repeat (destruct R as [R|R]; [injection R as <- <-; cbn in E; repeat (destruct E as [E|E]; [first [discriminate E|injection E as <-; split; [cbn; tauto|reflexivity]]|]); destruct E|]). destruct R. }
        destruct M as (M & ->).  destruct (mapParamToSchema names HeaderBindingTag (bound_to x)) as [sch|]; [|destruct J].
        destruct J as [<-|[]]. split; [reflexivity|]. destruct V as (T & _ & _ & Ty & _). exists T, m, a, rest, f0. auto.
  Qed.

  Lemma set_headers status resp : responds op status resp ->
    (forall n, sets_header co home ctx f body n -> exists s, carries resp n s /\ text_schema s) /\
    (forall n h, mlookup n (resp_headers resp) = Some h -> sets_header co home ctx f body n /\ text_schema (h_schema h) /\ h_required h = false).
  Proof.
    intros Hr.
    assert (QP : rt_respHeaders r = respHeaders_of es).
    { unfold S_Parse.analysed, comment_of, with_op. destruct id, (String.eqb (FormatDoc doc) ""); reflexivity. }
    assert (From : forall p, In p (respHeaders_of es) -> exists n, sets_header co home ctx f body n /\ p = str_param n false false).
    { intros p Ip. assert (I : In (ERespHeader p) es).
      { unfold respHeaders_of in Ip. apply in_flat_map in Ip as (e & I & H). destruct e; cbn in H; try contradiction. destruct H as [<-|[]]; auto. }
      destruct (said_called co home _ _ _ _ _ _ HS _ I) as (m & args & f0 & es' & regs' & C & Cc & K & _).
      destruct (event_says co _ _ _ _ _ _ Cc K ltac:(discriminate)) as (a & rest & -> & [(ev & n & R & Tx & E)|(ev & x & R & V & E)]).
      - assert (M : m = "Header" /\ p = str_param n false false).
        { cbn in R. repeat (destruct R as [R|R]; [injection R as <- <-; first [discriminate E|injection E as ->; split; reflexivity]|]). destruct R. }
        destruct M as (-> & ->). exists n. split; auto. exists "Header", a, rest, f0. cbn. auto.
      - exfalso. cbn in R. repeat (destruct R as [R|R]; [injection R as <- <-; cbn in E; repeat (destruct E as [E|E]; [discriminate E|]); destruct E|]). destruct R. }
    destruct (C21_headers _ _ _ _ _ _ _ _ _ _ status resp G DR GP Ir D) as (H1 & H2).
    { apply Forall_forall. intros p Ip. rewrite QP in Ip. destruct (From _ Ip) as (n & _ & ->). reflexivity. }
    { exact Hr. }
    assert (Each : forall n h, mlookup n (resp_headers resp) = Some h -> sets_header co home ctx f body n /\ text_schema (h_schema h) /\ h_required h = false).
    { intros n h E. destruct (H2 n h E) as (p & Ip & <- & Rq & M). rewrite QP in Ip. destruct (From _ Ip) as (n & S & ->). split; auto.
      cbn in M. injection M as <-. split; auto. repeat split. }
    split; [|exact Each].
    intros n (m & a & rest & f0 & C & R & Tx). destruct (calls_said co home _ _ _ _ _ _ Ag C _ _ _ HS) as (es' & regs' & Cc & I1 & I2).
    destruct R as [<-|[]].
    assert (In ("Header", fun n => ERespHeader (str_param n false false)) readers) as R by (cbn; tauto).
    rewrite (reader_says co _ _ _ _ _ _ _ _ R (fun ev' => reader_one _ _ _ R) Tx Cc) in I1.
    specialize (I1 _ (or_introl eq_refl)).
    assert (J : In (str_param n false false) (rt_respHeaders r)).
    { rewrite QP. unfold respHeaders_of. apply in_flat_map. eexists. split; [exact I1|cbn; auto]. }
    assert (K : In n (map fst (resp_headers resp))) by (apply H1; eexists; split; [exact J|reflexivity]).
    apply mlookup_Some_key in K as (h & E). destruct (Each _ _ E) as (_ & X & Y). exists (h_schema h). split; auto. exists h. auto.
  Qed.

  (** ** Forms *)
  Context (level : string -> nat).
  Hypothesis HP : no_named_pointers co.
  Hypothesis HD : distinct_types env main (documented co).
  Hypothesis Hname : nameable env main (documented co) level.
  Hypothesis Hmap : named_mappings custom.
  Hypothesis Ow : own_comps co comps.
  Hypothesis Hregs : incl (register l regs) comps.

  Definition content_word (k : form_content) : string := match k with Values _ => "string" | File => "file" end.

  Lemma form_body m a n f0 ev rest b : calls co home ctx f body m (a :: rest) f0 -> In (m, ev) readers -> text_of co f0 a n -> ev n = EBody b ->
    exists k, reads_form co home ctx f body (b_contentType b) (b_name b) k /\ b_name b = n /\ b_field b = field_of_type (content_word k) /\
      (k = Values string_type \/ k = File \/ k = Values (GSlice string_type) \/ k = Values (GMap string_type string_type)) /\
      (b_contentType b = urlencoded \/ b_contentType b = multipart).
  Proof.
    intros C R Tx E. cbn in R.
    assert (K : forall k b', In (m, (b_contentType b', k)) form_readers -> b' = b -> b_name b' = n -> reads_form co home ctx f body (b_contentType b) (b_name b) k).
    { intros k b' I <- <-. exists m. split; auto. exists m, a, rest, f0. cbn. auto. }
    repeat (destruct R as [R|R]; [injection R as <- <-; first [discriminate E|injection E as <-;
      first [exists (Values string_type); split; [eapply K; [|reflexivity|reflexivity]; cbn; tauto|cbn; tauto]
            |exists (Values (GSlice string_type)); split; [eapply K; [|reflexivity|reflexivity]; cbn; tauto|cbn; tauto]
            |exists (Values (GMap string_type string_type)); split; [eapply K; [|reflexivity|reflexivity]; cbn; tauto|cbn; tauto]
            |exists File; split; [eapply K; [|reflexivity|reflexivity]; cbn; tauto|cbn; tauto]]]|]). destruct R.
  Qed.

  Lemma plain_schema k : mapFieldToSchema names "form" (cleanField main (field_of_type (content_word k))) = Some (mapPredefinedTypeFormat (content_word k)).
  Proof.
    assert (Ty : f_type (cleanField main (field_of_type (content_word k))) = content_word k) by (apply (clean_plain main (field_of_type (content_word k)) eq_refl eq_refl)).
    unfold mapFieldToSchema. rewrite Ty. destruct k; reflexivity.
  Qed.
  Lemma plain_holds k : k = Values string_type \/ k = File -> holds env custom main d k (mapPredefinedTypeFormat (content_word k)).
  Proof.
    intros [-> | ->]; [|repeat split]. intros n. apply sh_basic with (ty := "string"); [cbn; tauto|reflexivity|reflexivity].
  Qed.

  Lemma forms_described :
    (forall T, binds_form co home ctx f body T -> transparent env custom main "form" T) ->
    (forall encoding n k, reads_form co home ctx f body encoding n k ->
       exists bodies s, op_requestBody op = Some bodies /\ mlookup encoding bodies = Some s) /\
    (forall encoding T, In encoding [urlencoded; multipart] -> binds_form co home ctx f body T ->
       exists bodies s, op_requestBody op = Some bodies /\ mlookup encoding bodies = Some s) /\
    (forall encoding bodies s, In encoding [urlencoded; multipart] -> op_requestBody op = Some bodies -> mlookup encoding bodies = Some s -> tells_form co home ctx f body custom main d encoding s).
  Proof.
    intros All.
    assert (RT : rt_body r = map (cleanBody main) (bodies_of es)).
    { unfold S_Parse.analysed, comment_of, with_op. destruct id, (String.eqb (FormatDoc doc) ""); reflexivity. }
    assert (FT : forall enc, In enc [urlencoded; multipart] -> ContentTypeToBindingTag enc = "form") by (intros enc [<-|[<-|[]]]; reflexivity).
    assert (Bound : forall m a rest f0 regs' x T, calls co home ctx f body m (a :: rest) f0 -> In m form_binders -> value_of co f0 a regs' x -> incl regs' regs ->
      typed co f0 a T -> exists s, mapFieldToSchema names "form" (cleanField main x) = Some s /\ portrays env custom main "form" d T s).
    { intros m a rest f0 regs' x T C M V I Ty.
      assert (BF : binds_form co home ctx f body T) by (exists m, a, rest, f0; auto).
      destruct (value_described co home o custom config routes main "form" comps d names level Ho HP HD Hname Hmap Ow G (form_tag home f) ctx f g regs l Hregs
                m (a :: rest) f0 a regs' x T C ltac:(cbn; auto) V I Ty (All T BF)) as (s & S1 & S2 & _). eauto. }
    split; [|split].
    - intros enc n k (m & Fr & m' & a & rest & f0 & C & [<-|[]] & Tx). destruct (calls_said co home _ _ _ _ _ _ Ag C _ _ _ HS) as (es' & regs' & Cc & I1 & I2).
      assert (R : exists ev b, In (m, ev) readers /\ ev n = EBody b /\ b_contentType b = enc).
      { cbn in Fr. repeat (destruct Fr as [Fr|Fr]; [injection Fr as <- <- <-;
          match goal with |- exists ev b, In (?m, ev) readers /\ _ =>
            let rs := eval cbv [readers] in readers in
            let rec go l := match l with (m, ?ev) :: _ => exists ev | _ :: ?t => go t end in go rs end;
          eexists; split; [cbn; tauto|split; reflexivity]|]). destruct Fr. }
      destruct R as (ev & b & R & Eb & Ec).
      rewrite (reader_says co _ _ _ _ _ _ _ _ R (fun ev' => reader_one _ _ _ R) Tx Cc) in I1. specialize (I1 _ (or_introl eq_refl)).
      rewrite Eb in I1. apply bodies_in in I1. assert (J : In (cleanBody main b) (rt_body r)) by (rewrite RT; now apply in_map).
      destruct (form_body _ _ _ _ _ _ _ C R Tx Eb) as (k' & _ & _ & Fb & _ & Enc).
      destruct (C22_one_described _ _ _ _ _ _ _ _ _ _ (cleanBody main b) (mapPredefinedTypeFormat (content_word k')) G DR GP Ir D J) as (bodies & b' & s' & L1 & _ & _ & _ & L2).
      + cbn [b_contentType cleanBody b_field]. rewrite FT, Fb, plain_schema; [reflexivity|]. destruct Enc as [-> | ->]; cbn; auto.
      + cbn [b_contentType cleanBody] in L2. rewrite Ec in L2. eauto.
    - intros enc T Ie (m & a & rest & f0 & C & M & Ty). destruct (calls_said co home _ _ _ _ _ _ Ag C _ _ _ HS) as (es' & regs' & Cc & I1 & I2).
      assert (R : In (m, bind_everything) binders) by (cbn in M |- *; intuition (subst; tauto)).
      destruct (binder_says co _ _ _ _ _ _ _ R Cc) as (x & -> & V).
      destruct (Bound _ _ _ _ _ _ _ C M V I2 Ty) as (s & Es & _).
      assert (J : In (EBody (body_to enc x)) (bind_everything x)) by (cbn in Ie |- *; destruct Ie as [<-|[<-|[]]]; tauto).
      apply I1, bodies_in, (in_map (cleanBody main)) in J. rewrite <- RT in J.
      destruct (C22_one_described _ _ _ _ _ _ _ _ _ _ _ s G DR GP Ir D J) as (bodies & b' & s' & L1 & _ & _ & _ & L2).
      + cbn [b_contentType cleanBody body_to b_field]. now rewrite FT.
      + cbn [b_contentType cleanBody body_to] in L2. eauto.
    - intros enc bodies s Ie Eo L. destruct (C22_no_other_body _ _ _ _ _ _ _ _ _ _ _ _ _ G DR GP Ir D Eo L) as (b & s0 & Ib & Ec & Es & ->).
      rewrite FT in Es by exact Ie. rewrite RT in Ib. apply in_map_iff in Ib as (b0 & <- & Ib). cbn [b_contentType cleanBody b_field b_name] in *. apply bodies_in in Ib.
      destruct (said_called co home _ _ _ _ _ _ HS _ Ib) as (m & args & f0 & es' & regs' & C & Cc & K & Ir').
      destruct (event_says co _ _ _ _ _ _ Cc K ltac:(discriminate)) as (a & rest & -> & [(ev & n & R & Tx & E)|(ev & x & R & V & E)]).
      + destruct (form_body _ _ _ _ _ _ _ C R Tx (eq_sym E)) as (k & Rf & <- & Fb & _ & _). rewrite Ec in Rf.
        rewrite Fb, plain_schema in Es. injection Es as <-. destruct (String.eqb_spec (b_name b0) "") as [E0|N0].
        * right. left. rewrite E0 in Rf. eauto.
        * left. exists (b_name b0), k, (mapPredefinedTypeFormat (content_word k)). split; auto. split; auto. split; [repeat split|apply plain_holds].
      + right. right. assert (M : In m form_binders /\ b_field b0 = x /\ b_name b0 = "").
        { rewrite <- Ec in Ie. cbn in R, Ie. repeat (destruct R as [R|R]; [injection R as <- <-; cbn in E;
            repeat (destruct E as [E|E]; [first [discriminate E|injection E as <-; first [split; [cbn; tauto|split; reflexivity]|exfalso; cbn in Ie; intuition discriminate]]|]); destruct E|]). destruct R. }
        destruct M as (M & Fb & ->). rewrite Fb in Es. assert (V' := V). destruct V' as (T & _ & _ & Ty & _).
        destruct (Bound _ _ _ _ _ _ _ C M V Ir' Ty) as (s' & E1 & E2). rewrite Es in E1. injection E1 as <-. cbn [String.eqb].
        exists T. split; auto. exists m, a, rest, f0. auto.
  Qed.
End Document.
