(** Proofs about the type analysis. *)
From Coq Require Import List String Ascii Bool ZArith Arith Relations Lia.
From Verif Require Import BaseStr M_Types M_Tags M_Collect S_Collect P_Collect M_TypeTrav S_TypeTrav.
Import ListNotations.
Local Open Scope string_scope.

(** ** The writer *)

Lemma wbind_ok {A B} (m : writer A) (f : A -> writer B) l b :
  wbind m f = (l, Ok b) ->
  exists l1 a l2, m = (l1, Ok a) /\ f a = (l2, Ok b) /\ l = (l1 ++ l2)%list.
Proof.
  unfold wbind. destruct m as [l1 [a|e| |]]; simpl; intros H; try discriminate.
  destruct (f a) as [l2 o] eqn:Ef; simpl in H. injection H as <- ->.
  exists l1, a, l2. auto.
Qed.

Lemma wbind_ok_intro {A B} (m : writer A) (f : A -> writer B) l1 a l2 b :
  m = (l1, Ok a) -> f a = (l2, Ok b) -> wbind m f = ((l1 ++ l2)%list, Ok b).
Proof. intros -> E. unfold wbind; simpl. now rewrite E. Qed.

Lemma wbind_fuel {A B} (m : writer A) (f : A -> writer B) :
  snd (wbind m f) = OutOfFuel ->
  snd m = OutOfFuel \/ exists a, snd m = Ok a /\ snd (f a) = OutOfFuel.
Proof.
  unfold wbind. destruct m as [l1 [a|e| |]]; simpl; try discriminate; auto. eauto.
Qed.

Lemma wbind_fuel_l {A B} (m : writer A) (f : A -> writer B) :
  snd m = OutOfFuel -> snd (wbind m f) = OutOfFuel.
Proof. unfold wbind. now intros ->. Qed.

Lemma wret_ok {A} (o : outcome A) l a : wret o = (l, Ok a) -> l = [] /\ o = Ok a.
Proof. unfold wret. intros H; injection H as <- ->. auto. Qed.

Ltac wsplit :=
  repeat match goal with
  | H : wbind _ _ = (_, Ok _) |- _ =>
      let l1 := fresh "l" in let a := fresh "a" in let l2 := fresh "l" in
      let H1 := fresh "W" in let H2 := fresh "W" in let H3 := fresh "E" in
      apply wbind_ok in H; destruct H as (l1 & a & l2 & H1 & H2 & H3)
  | H : wret _ = (_, Ok _) |- _ =>
      let H1 := fresh "E" in let H2 := fresh "O" in
      apply wret_ok in H; destruct H as [H1 H2]
  end.

Lemma finish_ok name r r' : finish name r = Ok r' ->
  r' = (if String.eqb name "" then r else res_with_name name r) /\ q_type r <> "".
Proof.
  unfold finish. destruct (String.eqb name ""); simpl;
  destruct (String.eqb_spec (q_type r) ""); try discriminate; intros H; injection H as <-; auto.
Qed.

Lemma finish_not_fuel name r : finish name r <> OutOfFuel.
Proof. unfold finish. destruct (String.eqb (q_type _) ""); discriminate. Qed.

(** ** Induction on types *)
Fixpoint gtype_ind' (P : gtype -> Prop)
  (HB : forall b k, P (GBasic b k)) (HN : forall id, P (GNamed id))
  (HP : forall e, P e -> P (GPointer e)) (HS : forall e, P e -> P (GSlice e))
  (HA : forall n e, P e -> P (GArray n e)) (HM : forall k e, P k -> P e -> P (GMap k e))
  (HF : forall fs, Forall (fun f => P (gf_type f)) fs -> P (GStruct fs))
  (HI : P GInterface) (HO : P GOther) (t : gtype) : P t :=
  let rec := gtype_ind' P HB HN HP HS HA HM HF HI HO in
  match t with
  | GBasic b k => HB b k
  | GNamed id => HN id
  | GPointer e => HP e (rec e)
  | GSlice e => HS e (rec e)
  | GArray n e => HA n e (rec e)
  | GMap k e => HM k e (rec k) (rec e)
  | GStruct fs => HF fs ((fix go l : Forall (fun f => P (gf_type f)) l :=
                           match l with
                           | [] => Forall_nil _
                           | f :: r => Forall_cons f (rec (gf_type f)) (go r)
                           end) fs)
  | GInterface => HI
  | GOther => HO
  end.

(** ** Termination *)

Lemma struct_field_fuel env an f :
  snd (struct_field env an f) = OutOfFuel -> snd (an (gf_type f)) = OutOfFuel.
Proof.
  unfold struct_field. intros H. apply wbind_fuel in H. destruct H as [H|(r & Er & H)]; auto.
  apply wbind_fuel in H. destruct H as [H|(u & Eu & H)].
  - exfalso. simpl in H. destruct (q_package r); simpl in H; try discriminate.
    destruct (te_loads env s); discriminate.
  - apply wbind_fuel in H. destruct H as [H|(r' & Er' & H)]; [|discriminate].
    exfalso. unfold wret in H; simpl in H. unfold field_doc in H.
    destruct (q_package r); try discriminate. destruct (gf_at f s) as [[[|] |]|]; discriminate.
Qed.

Lemma struct_fields_fuel env an fs :
  snd (struct_fields env an fs) = OutOfFuel ->
  exists f, In f fs /\ gf_exported f = true /\ snd (an (gf_type f)) = OutOfFuel.
Proof.
  induction fs as [|f r IH]; simpl; [discriminate|].
  destruct (gf_exported f) eqn:X.
  - intros H. apply wbind_fuel in H. destruct H as [H|(kv & Ekv & H)].
    + exists f. apply struct_field_fuel in H. auto.
    + apply wbind_fuel in H. destruct H as [H|(kvs & _ & H)]; [|discriminate].
      destruct (IH H) as (g & Hg & Xg & Eg). eauto.
  - intros H. destruct (IH H) as (g & Hg & Xg & Eg). eauto.
Qed.

Lemma get_not_fuel env p : Get env p <> OutOfFuel.
Proof. destruct p; simpl; try discriminate. destruct (te_loads env s); discriminate. Qed.

(** Running out of fuel comes from a part. *)
Lemma fuel_from_part n env add pkg name t :
  snd (TypeResult (S n) env add pkg name t) = OutOfFuel ->
  exists t' pkg' name', part env add t t' /\ snd (TypeResult n env add pkg' name' t') = OutOfFuel.
Proof.
  destruct t as [b k|id|e|e|len e|k e|fs| |]; cbn [TypeResult]; intros H.
  - apply wbind_fuel in H. destruct H as [H|(a & _ & H)].
    + exfalso. unfold wret in H; simpl in H. destruct (String.eqb name ""); [discriminate|].
      destruct pkg as [p|]; simpl in H; [|discriminate].
      destruct (te_loads env p); discriminate.
    + exfalso; eapply finish_not_fuel; exact H.
  - apply wbind_fuel in H. destruct H as [H|(a & _ & H)]; [|exfalso; eapply finish_not_fuel; exact H].
    destruct (te_pkg env id) as [p|] eqn:Ep; [|discriminate].
    apply wbind_fuel in H. destruct H as [H|(a & _ & H)]; [exfalso; exact (get_not_fuel env (Some p) H)|].
    destruct add; [|discriminate].
    apply wbind_fuel in H. destruct H as [H|(u & _ & H)]; [|discriminate].
    exists (te_under env id), (Some p), (te_name env id). split; auto. econstructor; eauto.
  - exists e, pkg, "". split; auto; constructor.
  - apply wbind_fuel in H. destruct H as [H|(a & _ & H)]; [|exfalso; eapply finish_not_fuel; exact H].
    exists e, pkg, "". split; auto; constructor.
  - apply wbind_fuel in H. destruct H as [H|(a & _ & H)]; [|exfalso; eapply finish_not_fuel; exact H].
    exists e, pkg, "". split; auto; constructor.
  - apply wbind_fuel in H. destruct H as [H|(a & _ & H)].
    + exists k, pkg, "". split; auto; constructor.
    + apply wbind_fuel in H. destruct H as [H|(a' & _ & H)]; [|exfalso; eapply finish_not_fuel; exact H].
      exists e, pkg, "". split; auto; constructor.
  - apply wbind_fuel in H. destruct H as [H|(a & _ & H)]; [|exfalso; eapply finish_not_fuel; exact H].
    apply struct_fields_fuel in H. destruct H as (f & Hf & Xf & Ef).
    exists (gf_type f), pkg, "". split; auto. constructor; auto.
  - exfalso; eapply finish_not_fuel; exact H.
  - exfalso; eapply finish_not_fuel; exact H.
Qed.

(** The parts of a type are finitely many. *)
Lemma parts_listed env add t : exists l, forall t', part env add t t' <-> In t' l.
Proof.
  destruct t as [b k|id|e|e|len e|k e|fs| |].
  - exists []. intros t'; split; [intros H; inversion H|intros []].
  - destruct add; [destruct (te_pkg env id) eqn:E|].
    + exists [te_under env id]. intros t'; split.
      * intros H; inversion H; subst; simpl; auto.
      * intros [<-|[]]. econstructor; eauto.
    + exists []. intros t'; split; [intros H; inversion H; congruence|intros []].
    + exists []. intros t'; split; [intros H; inversion H; congruence|intros []].
  - exists [e]. intros t'; split; [intros H; inversion H; subst; simpl; auto|intros [<-|[]]; constructor].
  - exists [e]. intros t'; split; [intros H; inversion H; subst; simpl; auto|intros [<-|[]]; constructor].
  - exists [e]. intros t'; split; [intros H; inversion H; subst; simpl; auto|intros [<-|[]]; constructor].
  - exists [k; e]. intros t'; split; [intros H; inversion H; subst; simpl; auto|].
    intros [<-|[<-|[]]]; constructor.
  - exists (map gf_type (filter gf_exported fs)). intros t'; split.
    + intros H; inversion H; subst. apply in_map. apply filter_In; auto.
    + intros H. apply in_map_iff in H. destruct H as (f & <- & H). apply filter_In in H.
      destruct H. constructor; auto.
  - exists []. intros t'; split; [intros H; inversion H|intros []].
  - exists []. intros t'; split; [intros H; inversion H|intros []].
Qed.

Lemma bound_list {A} (l : list A) (Q : A -> nat -> Prop) :
  (forall a, In a l -> exists n, forall m, n <= m -> Q a m) ->
  exists n, forall a m, In a l -> n <= m -> Q a m.
Proof.
  intros H. induction l as [|a r IH].
  - exists 0. intros a m [].
  - destruct IH as [n Hn]; [intros; apply H; simpl; auto|].
    destruct (H a (or_introl eq_refl)) as [n' Hn']. exists (Nat.max n n').
    intros b m [<-|Hb] Hm; [apply Hn'|apply Hn]; auto; lia.
Qed.

Lemma finite_terminates env add t : finite_type env add t ->
  exists n, forall m, n <= m -> forall pkg name, snd (TypeResult m env add pkg name t) <> OutOfFuel.
Proof.
  intros H. induction H as [t _ IH].
  destruct (parts_listed env add t) as [l Hl].
  destruct (bound_list l (fun t' m => forall pkg name, snd (TypeResult m env add pkg name t') <> OutOfFuel))
    as [n Hn].
  - intros t' Ht'. apply IH. now apply Hl.
  - exists (S n). intros m Hm pkg name E. destruct m as [|m]; [lia|].
    apply fuel_from_part in E. destruct E as (t' & pkg' & name' & Hp & E).
    apply (Hn t' m) in E; auto; [now apply Hl|lia].
Qed.

(** Without component registration named types are not followed. *)
Lemma unfollowed_finite env t : finite_type env false t.
Proof.
  induction t using gtype_ind'; constructor; intros t' Hp; inversion Hp; subst; auto.
  - discriminate.
  - eapply Forall_forall in H; eauto.
Qed.

(** ** Success *)

Lemma struct_fields_incl env an fs f l kvs :
  struct_fields env an fs = (l, Ok kvs) -> In f fs -> gf_exported f = true ->
  exists l1 r, an (gf_type f) = (l1, Ok r) /\ incl l1 l.
Proof.
  revert l kvs. induction fs as [|g rest IH]; intros l kvs E Hin X; [destruct Hin|].
  simpl in E. destruct (gf_exported g) eqn:Xg.
  - wsplit. destruct Hin as [<-|Hin].
    + unfold struct_field in W. wsplit. subst. eexists _, _. split; [eassumption|].
      intros x Hx. rewrite !in_app_iff; auto.
    + destruct (IH _ _ W1 Hin X) as (lz & r & Er & Hi). exists lz, r. split; auto.
      subst. intros x Hx. rewrite !in_app_iff; auto.
  - destruct Hin as [<-|Hin]; [congruence|]. eauto.
Qed.

(** A successful analysis analysed every part, with its registrations. *)
Lemma part_ok n env add pkg name t l r t' :
  TypeResult (S n) env add pkg name t = (l, Ok r) -> part env add t t' ->
  exists pkg' name' l' r', TypeResult n env add pkg' name' t' = (l', Ok r') /\ incl l' l.
Proof.
  intros E Hp. inversion Hp; subst; cbn [TypeResult] in E.
  - exists pkg, "". eexists _, _. split; [eassumption|apply incl_refl].
  - wsplit. subst. exists pkg, "". eexists _, _. split; [eassumption|]. now apply incl_appl.
  - wsplit. subst. exists pkg, "". eexists _, _. split; [eassumption|]. now apply incl_appl.
  - wsplit. subst. exists pkg, "". eexists _, _. split; [eassumption|]. now apply incl_appl.
  - wsplit. subst. exists pkg, "". eexists _, _. split; [eassumption|].
    apply incl_appr. now apply incl_appl.
  - wsplit. subst. destruct (struct_fields_incl _ _ _ f _ _ W H H0) as (l1 & r1 & Er & Hi).
    exists pkg, "". eexists _, _. split; [eassumption|]. now apply incl_appl.
  - rewrite H0 in E. wsplit. subst. exists (Some p), (te_name env id). eexists _, _.
    split; [eassumption|]. apply incl_appl. apply incl_appr. now apply incl_appl.
Qed.

Lemma reach_ok n env pkg name t l r t' :
  TypeResult n env true pkg name t = (l, Ok r) -> reach env true t t' ->
  exists n' pkg' name' l' r', TypeResult n' env true pkg' name' t' = (l', Ok r') /\ incl l' l.
Proof.
  intros E Hr. revert n pkg name l r E.
  induction Hr as [t|t y z Hp Hr IH]; intros n pkg name l r E.
  - eexists _, _, _, _, _. split; [eassumption|apply incl_refl].
  - destruct n as [|n]; [discriminate|].
    destruct (part_ok _ _ _ _ _ _ _ _ _ E Hp) as (pkg' & name' & l' & r' & E' & Hi).
    destruct (IH _ _ _ _ _ E') as (n2 & p2 & nm2 & l2 & r2 & E2 & Hi2).
    eexists _, _, _, _, _. split; [eassumption|]. eapply incl_tran; eauto.
Qed.

(** ** An analysable program yields no error *)

Definition pkg_ok (env : TypeEnv) (p : option string) : Prop :=
  match p with Some s => te_loads env s = true | None => True end.

Lemma analysable_part env pkg t t' : analysable env pkg t -> part env true t t' -> analysable env pkg t'.
Proof.
  intros [H1 H2] Hp. split; auto. intros t'' Hr. apply H2. econstructor; eauto.
Qed.
Lemma good_parts env t : (forall t', reach env true t t' -> good_node env t') ->
  forall t', part env true t t' -> forall t'', reach env true t' t'' -> good_node env t''.
Proof. intros H t' Hp t'' Hr. apply H. econstructor; eauto. Qed.

Definition fine {A} (P : A -> Prop) (o : outcome A) : Prop :=
  match o with Ok a => P a | OutOfFuel => True | _ => False end.

Lemma wbind_fine {A B} (P : A -> Prop) (Q : B -> Prop) (m : writer A) (f : A -> writer B) :
  fine P (snd m) -> (forall a, P a -> fine Q (snd (f a))) -> fine Q (snd (wbind m f)).
Proof. unfold wbind. destruct m as [l [a|e| |]]; simpl; auto. Qed.

Lemma finish_fine env name r : q_type r <> "" -> pkg_ok env (q_package r) ->
  fine (fun x => pkg_ok env (q_package x)) (finish name r).
Proof.
  intros H1 H2. unfold finish. destruct (String.eqb name ""); simpl;
  apply String.eqb_neq in H1; rewrite H1; simpl; auto.
Qed.

Lemma struct_fields_fine env an fs :
  (forall f p d, In f fs -> gf_exported f = true -> gf_at f p <> Some (NField [] d)) ->
  (forall f, In f fs -> gf_exported f = true ->
     fine (fun x => pkg_ok env (q_package x)) (snd (an (gf_type f)))) ->
  fine (fun _ => True) (snd (struct_fields env an fs)).
Proof.
  intros Hn Ha. induction fs as [|f r IH]; simpl; auto.
  assert (IH' : fine (fun _ => True) (snd (struct_fields env an r))).
  { apply IH; intros; [apply Hn|apply Ha]; simpl; auto. }
  destruct (gf_exported f) eqn:X; auto.
  apply (wbind_fine (fun _ => True)).
  - unfold struct_field. eapply wbind_fine; [apply Ha; simpl; auto|]. intros q Hq.
    apply (wbind_fine (fun _ => True)).
    { simpl. cbv beta in Hq. destruct (q_package q) as [p|]; simpl in *; auto. now rewrite Hq. }
    intros _ _. apply (wbind_fine (fun _ => True)); simpl; auto.
    unfold field_doc. destruct (q_package q) as [p|]; simpl; auto.
    destruct (gf_at f p) as [[[|] d|]|] eqn:Ef; simpl; auto.
    eapply Hn; eauto. simpl; auto.
  - intros kv _. apply (wbind_fine (fun _ => True)); simpl; auto.
Qed.

Lemma type_fine n : forall env pkg name t,
  pkg_ok env pkg -> (name = "" \/ exists p, pkg = Some p) ->
  (forall t', reach env true t t' -> good_node env t') ->
  fine (fun r => pkg_ok env (q_package r)) (snd (TypeResult n env true pkg name t)).
Proof.
  induction n as [|n IH]; intros env pkg name t Hpkg Hname Hg; [simpl; auto|].
  assert (Hme : good_node env t) by (apply Hg; constructor).
  assert (Hsub : forall t', part env true t t' -> forall pkg' name', pkg_ok env pkg' ->
            (name' = "" \/ exists p, pkg' = Some p) ->
            fine (fun r => pkg_ok env (q_package r)) (snd (TypeResult n env true pkg' name' t'))).
  { intros t' Hp pkg' name' H1 H2. apply IH; auto. eapply good_parts; eauto. }
  clear IH Hg.
  destruct t as [b k|id|e|e|len e|k e|fs| |]; cbn [TypeResult]; simpl in Hme.
  - eapply wbind_fine with (P := fun r => q_type r <> "" /\ pkg_ok env (q_package r)).
    + simpl. destruct (String.eqb_spec name ""); simpl; auto.
      destruct Hname as [?|[p ->]]; [contradiction|]. simpl in *. rewrite Hpkg. simpl. auto.
    + intros r [H1 H2]. simpl. now apply finish_fine.
  - destruct Hme as [Hn Hl]. eapply wbind_fine with (P := fun _ => True).
    + destruct (te_pkg env id) as [p|] eqn:Ep; simpl; auto.
      apply (wbind_fine (fun _ => True)); [simpl; now rewrite (Hl p)|].
      intros _ _. eapply wbind_fine; [apply Hsub; eauto; [econstructor; eauto|now apply Hl]|].
      simpl; auto.
    + intros _ _. simpl. apply finish_fine; auto. simpl.
      destruct (te_pkg env id) eqn:Ep; simpl; auto.
  - apply Hsub; auto. constructor.
  - eapply wbind_fine; [apply Hsub; auto; constructor|]. intros r Hr. apply finish_fine; auto. discriminate.
  - eapply wbind_fine; [apply Hsub; auto; constructor|]. intros r Hr. apply finish_fine; auto. discriminate.
  - eapply wbind_fine; [apply Hsub; auto; constructor|]. intros kr Hkr.
    eapply wbind_fine; [apply Hsub; auto; constructor|]. intros r Hr. apply finish_fine; auto. discriminate.
  - eapply wbind_fine with (P := fun _ => True).
    + apply struct_fields_fine; auto. intros f Hf X. apply Hsub; auto. now constructor.
    + intros kvs _. apply finish_fine; auto. discriminate.
  - apply finish_fine; auto. discriminate.
  - contradiction.
Qed.

Lemma analysable_fine n env pkg t : analysable env pkg t ->
  (exists l r, TypeResult n env true (Some pkg) "" t = (l, Ok r)) \/
  snd (TypeResult n env true (Some pkg) "" t) = OutOfFuel.
Proof.
  intros [H1 H2]. assert (F := type_fine n env (Some pkg) "" t H1 (or_introl eq_refl) H2).
  destruct (TypeResult n env true (Some pkg) "" t) as [l [r|e| |]]; simpl in *; eauto; contradiction.
Qed.

(** An analysis that ends analysed a finite type. *)
Lemma ok_finite n : forall env pkg name t l r,
  TypeResult n env true pkg name t = (l, Ok r) -> finite_type env true t.
Proof.
  induction n as [|n IH]; intros env pkg name t l r E; [discriminate|].
  constructor. intros t' Hp. destruct (part_ok _ _ _ _ _ _ _ _ _ E Hp) as (p & nm & l' & r' & E' & _).
  exact (IH _ _ _ _ _ _ E').
Qed.

Lemma terminates_iff env pkg t : analysable env pkg t ->
  (finite_type env true t <->
   exists n, snd (TypeResult n env true (Some pkg) "" t) <> OutOfFuel).
Proof.
  intros Ha. split.
  - intros Hf. destruct (finite_terminates _ _ _ Hf) as [n Hn]. exists n. auto.
  - intros [n Hn]. destruct (analysable_fine n env pkg t Ha) as [(l & r & E)|E]; [|contradiction].
    eapply ok_finite; eauto.
Qed.

(** ** More fuel does not change an answer *)

Lemma wbind_mono {A B} (m1 m2 : writer A) (f1 f2 : A -> writer B) :
  snd (wbind m1 f1) <> OutOfFuel ->
  (snd m1 <> OutOfFuel -> m2 = m1) ->
  (forall a, snd (f1 a) <> OutOfFuel -> f2 a = f1 a) ->
  wbind m2 f2 = wbind m1 f1.
Proof.
  unfold wbind. intros H Hm Hf. destruct m1 as [l [a|e| |]]; simpl in *;
    try (rewrite Hm; [simpl; auto|discriminate]).
  - now rewrite Hf.
  - contradiction.
Qed.

Lemma struct_fields_mono env an1 an2 fs :
  (forall t, snd (an1 t) <> OutOfFuel -> an2 t = an1 t) ->
  snd (struct_fields env an1 fs) <> OutOfFuel ->
  struct_fields env an2 fs = struct_fields env an1 fs.
Proof.
  intros Ha. induction fs as [|f r IH]; simpl; auto. intros H.
  destruct (gf_exported f); auto.
  apply wbind_mono; auto.
  - intros H'. unfold struct_field in *. apply wbind_mono; auto.
  - intros kv H'. apply wbind_mono; auto.
Qed.

Lemma type_mono n : forall m env add pkg name t, n <= m ->
  snd (TypeResult n env add pkg name t) <> OutOfFuel ->
  TypeResult m env add pkg name t = TypeResult n env add pkg name t.
Proof.
  induction n as [|n IH]; intros m env add pkg name t Hle H; [now contradiction H|].
  destruct m as [|m]; [lia|]. apply le_S_n in Hle.
  destruct t as [b k|id|e|e|len e|k e|fs| |]; cbn [TypeResult] in *; auto.
  - apply wbind_mono; auto. intros H1. destruct (te_pkg env id); auto.
    apply wbind_mono; auto. intros _ H2. destruct add; auto. apply wbind_mono; auto.
  - apply wbind_mono; auto.
  - apply wbind_mono; auto.
  - apply wbind_mono; auto. intros a H1. apply wbind_mono; auto.
  - apply wbind_mono; auto. intros H1. apply struct_fields_mono; auto.
Qed.

Lemma type_det n m env add pkg name t l r l' r' :
  TypeResult n env add pkg name t = (l, Ok r) -> TypeResult m env add pkg name t = (l', Ok r') ->
  l = l' /\ r = r'.
Proof.
  intros E1 E2. destruct (Nat.le_ge_cases n m) as [H|H].
  - assert (E := type_mono n m env add pkg name t H). rewrite E1 in E.
    rewrite E2 in E by discriminate. specialize (E ltac:(discriminate)). injection E as -> ->. auto.
  - assert (E := type_mono m n env add pkg name t H). rewrite E2 in E.
    rewrite E1 in E by discriminate. specialize (E ltac:(discriminate)). injection E as -> ->. auto.
Qed.

(** ** What is registered *)

(** The result registered for a named type: the analysis of its definition, with its comment. *)
Definition definition_of (env : TypeEnv) (id : nat) (x : Result) : Prop :=
  exists p n l u, te_pkg env id = Some p /\
    TypeResult n env true (Some p) (te_name env id) (te_under env id) = (l, Ok u) /\
    x = res_with_doc (FormatDoc (te_doc env id)) u.

Lemma definition_det env id x y : definition_of env id x -> definition_of env id y -> x = y.
Proof.
  intros (p & n & l & u & Hp & E & ->) (p' & n' & l' & u' & Hp' & E' & ->).
  assert (p' = p) by congruence. subst.
  destruct (type_det _ _ _ _ _ _ _ _ _ _ _ E E') as [_ ->]. reflexivity.
Qed.

Lemma named_registered n env pkg name t l r id p :
  TypeResult n env true pkg name t = (l, Ok r) -> reach env true t (GNamed id) ->
  te_pkg env id = Some p -> exists x, In x l /\ definition_of env id x.
Proof.
  intros E Hr Hp. destruct (reach_ok _ _ _ _ _ _ _ _ E Hr) as (n' & pkg' & name' & l' & r' & E' & Hi).
  destruct n' as [|n']; [discriminate|]. cbn [TypeResult] in E'. rewrite Hp in E'.
  wsplit. match goal with H : ([_], Ok tt) = _ |- _ => injection H as <- <- end. subst.
  eexists. split.
  - apply Hi. rewrite !in_app_iff. left. right. right. left. reflexivity.
  - eexists _, _, _, _. eauto.
Qed.

Lemma wbind_in {A B} (m : writer A) (f : A -> writer B) x :
  In x (fst (wbind m f)) -> In x (fst m) \/ exists a, snd m = Ok a /\ In x (fst (f a)).
Proof.
  unfold wbind. destruct m as [l [a|e| |]]; simpl; auto.
  rewrite in_app_iff. intros [H|H]; eauto.
Qed.

Lemma struct_fields_in env an fs x : In x (fst (struct_fields env an fs)) ->
  exists f, In f fs /\ gf_exported f = true /\ In x (fst (an (gf_type f))).
Proof.
  induction fs as [|f r IH]; simpl; [tauto|]. destruct (gf_exported f) eqn:X.
  - intros H. apply wbind_in in H. destruct H as [H|(kv & _ & H)].
    + unfold struct_field in H. apply wbind_in in H. destruct H as [H|(q & _ & H)]; [eauto|].
      apply wbind_in in H. destruct H as [[]|(u & _ & H)].
      apply wbind_in in H. destruct H as [[]|(q' & _ & [])].
    + apply wbind_in in H. destruct H as [H|(kvs & _ & [])].
      destruct (IH H) as (g & Hg & Xg & Eg). eauto.
  - intros H. destruct (IH H) as (g & Hg & Xg & Eg). eauto.
Qed.

(** Only definitions of named types that are parts are registered, also when the analysis fails. *)
Lemma registered_only n : forall env pkg name t x,
  In x (fst (TypeResult n env true pkg name t)) ->
  exists id, reach env true t (GNamed id) /\ definition_of env id x.
Proof.
  induction n as [|n IH]; intros env pkg name t x H; [destruct H|].
  assert (Sub : forall t' pkg' name', part env true t t' ->
            In x (fst (TypeResult n env true pkg' name' t')) ->
            exists id, reach env true t (GNamed id) /\ definition_of env id x).
  { intros t' pkg' name' Hp Hx. destruct (IH _ _ _ _ _ Hx) as (id & Hr & Hd).
    exists id. split; auto. econstructor; eauto. }
  destruct t as [b k|id|e|e|len e|k e|fs| |]; cbn [TypeResult] in H.
  - apply wbind_in in H. destruct H as [[]|(a & _ & [])].
  - apply wbind_in in H. destruct H as [H|(a & _ & [])].
    destruct (te_pkg env id) as [p|] eqn:Ep; [|destruct H].
    apply wbind_in in H. destruct H as [[]|(a & _ & H)].
    apply wbind_in in H. destruct H as [H|(u & Eu & H)].
    + eapply Sub; [|eassumption]. econstructor; eauto.
    + destruct H as [<-|[]]. exists id. split; [constructor|].
      destruct (TypeResult n env true (Some p) (te_name env id) (te_under env id)) as [l o] eqn:E.
      simpl in Eu. subst o. exists p, n, l, u. auto.
  - eapply Sub; [|eassumption]. constructor.
  - apply wbind_in in H. destruct H as [H|(a & _ & [])]. eapply Sub; [|eassumption]. constructor.
  - apply wbind_in in H. destruct H as [H|(a & _ & [])]. eapply Sub; [|eassumption]. constructor.
  - apply wbind_in in H. destruct H as [H|(a & _ & H)].
    + eapply Sub; [|eassumption]. constructor.
    + apply wbind_in in H. destruct H as [H|(a' & _ & [])]. eapply Sub; [|eassumption]. constructor.
  - apply wbind_in in H. destruct H as [H|(a & _ & [])].
    apply struct_fields_in in H. destruct H as (f & Hf & X & H).
    eapply Sub; [|eassumption]. now constructor.
  - destruct H.
  - destruct H.
Qed.

(** ** The package and the name of a result *)
Lemma result_package n : forall env add pkg name t l r,
  TypeResult n env add pkg name t = (l, Ok r) -> q_package r = described_in env pkg t.
Proof.
  induction n as [|n IH]; intros env add pkg name t l r E; [discriminate|].
  destruct t as [b k|id|e|e|len e|k e|fs| |]; cbn [TypeResult] in E; wsplit.
  - apply finish_ok in O. destruct O as [-> _].
    assert (q_package a = pkg).
    { destruct (String.eqb name ""); [now injection O0 as <-|].
      destruct pkg as [p|]; [|discriminate]. simpl in O0.
      destruct (te_loads env p); [|discriminate]. now injection O0 as <-. }
    destruct (String.eqb name ""); auto.
  - apply finish_ok in O. destruct O as [-> _]. destruct (String.eqb name ""); auto.
  - exact (IH _ _ _ _ _ _ _ E).
  - apply finish_ok in O. destruct O as [-> _]. simpl.
    destruct (String.eqb name ""); simpl; eauto.
  - apply finish_ok in O. destruct O as [-> _]. simpl.
    destruct (String.eqb name ""); simpl; eauto.
  - apply finish_ok in O. destruct O as [-> _]. simpl.
    destruct (String.eqb name ""); simpl; eauto.
  - apply finish_ok in O. destruct O as [-> _]. destruct (String.eqb name ""); auto.
  - apply finish_ok in O. destruct O as [-> _]. destruct (String.eqb name ""); auto.
  - apply finish_ok in O. destruct O as [_ X]. simpl in X. congruence.
Qed.

Lemma result_name n env add pkg name t l r :
  TypeResult n env add pkg name t = (l, Ok r) -> name <> "" -> (forall e, t <> GPointer e) ->
  q_name r = name.
Proof.
  destruct n as [|n]; [discriminate|]. intros E Hn Hp. apply String.eqb_neq in Hn.
  destruct t as [b k|id|e|e|len e|k e|fs| |]; cbn [TypeResult] in E;
    try (exfalso; eapply Hp; reflexivity); wsplit;
    apply finish_ok in O; destruct O as [-> _]; rewrite Hn; reflexivity.
Qed.

(** ** The registry *)
Lemma register_app c l1 l2 : register c (l1 ++ l2) = register (register c l1) l2.
Proof. unfold register. apply fold_left_app. Qed.

Lemma addComponent_keep c x y : In y c -> In y (addComponent c x).
Proof.
  unfold addComponent. destruct (String.eqb _ ""); auto.
  unfold AddComponent; simpl. rewrite addComponent1_eq.
  destruct (existsb _ c); auto. rewrite in_app_iff; auto.
Qed.

Lemma register_keep calls : forall c y, In y c -> In y (register c calls).
Proof.
  induction calls as [|x r IH]; intros c y H; simpl; auto. apply IH. now apply addComponent_keep.
Qed.

Lemma addComponent_has c x : f_package (ParseResultToField x) <> "" ->
  exists y, In y (addComponent c x) /\ comp_key y = comp_key (ParseResultToField x).
Proof.
  intros H. unfold addComponent. apply String.eqb_neq in H. rewrite H.
  unfold AddComponent; simpl. rewrite addComponent1_eq.
  destruct (existsb (comp_same (ParseResultToField x)) c) eqn:E.
  - apply existsb_comp_same in E. apply in_map_iff in E. destruct E as (y & E & Hy). eauto.
  - exists (ParseResultToField x). rewrite in_app_iff; simpl; auto.
Qed.

Lemma register_has calls : forall c x, In x calls -> f_package (ParseResultToField x) <> "" ->
  exists y, In y (register c calls) /\ comp_key y = comp_key (ParseResultToField x).
Proof.
  induction calls as [|z r IH]; intros c x Hin Hp; [destruct Hin|]. simpl.
  destruct Hin as [->|Hin]; [|now apply IH].
  destruct (addComponent_has c x Hp) as (y & Hy & Ek). exists y. split; auto. now apply register_keep.
Qed.

Lemma register_from calls : forall c y, In y (register c calls) ->
  In y c \/ exists x, In x calls /\ y = ParseResultToField x.
Proof.
  induction calls as [|z r IH]; intros c y H; simpl in *; auto.
  destruct (IH _ _ H) as [H'|(x & Hx & ->)]; [|eauto].
  unfold addComponent in H'. destruct (String.eqb _ ""); auto.
  unfold AddComponent in H'; simpl in H'. rewrite addComponent1_eq in H'.
  destruct (existsb _ c); auto. rewrite in_app_iff in H'. destruct H' as [H'|[<-|[]]]; eauto.
Qed.

Lemma parse_name r : f_name (ParseResultToField r) = q_name r.
Proof. destruct r; reflexivity. Qed.
Lemma parse_package r :
  f_package (ParseResultToField r) = if needs_package r then Path (q_package r) else "".
Proof. destruct r; reflexivity. Qed.

(** The key under which a named type at home is registered. *)
Lemma definition_key env id p x :
  definition_of env id x -> te_pkg env id = Some p -> te_name env id <> "" -> at_home env id ->
  f_name (ParseResultToField x) = te_name env id /\ f_package (ParseResultToField x) = p.
Proof.
  intros (p' & n & l & u & Hp' & E & ->) Hp Hn [Hptr Hd]. assert (p' = p) by congruence. subst p'.
  assert (N := result_name _ _ _ _ _ _ _ _ E Hn Hptr).
  assert (P := result_package _ _ _ _ _ _ _ _ E).
  rewrite parse_name, parse_package. simpl. split; auto.
  unfold needs_package. simpl. rewrite N. apply String.eqb_neq in Hn. rewrite Hn. simpl.
  rewrite orb_true_r. simpl. rewrite P. rewrite <- Hp, Hd, Hp. reflexivity.
Qed.

Lemma components_present n env pkg t l r id p comps :
  TypeResult n env true pkg "" t = (l, Ok r) -> reach env true t (GNamed id) ->
  te_pkg env id = Some p -> p <> "" -> te_name env id <> "" -> at_home env id ->
  exists c, In c (register comps l) /\ f_package c = p /\ f_name c = te_name env id.
Proof.
  intros E Hr Hp Hp0 Hn Hh.
  destruct (named_registered _ _ _ _ _ _ _ _ _ E Hr Hp) as (x & Hx & Hd).
  destruct (definition_key _ _ _ _ Hd Hp Hn Hh) as [K1 K2].
  destruct (register_has l comps x Hx) as (y & Hy & Ek); [congruence|].
  exists y. split; auto. unfold comp_key in Ek. rewrite K1, K2 in Ek. injection Ek as -> ->. auto.
Qed.

Lemma components_own n env pkg t l r id p :
  TypeResult n env true pkg "" t = (l, Ok r) ->
  (forall i q, reach env true t (GNamed i) -> te_pkg env i = Some q ->
     q <> "" /\ te_name env i <> "" /\ at_home env i) ->
  (forall i j, reach env true t (GNamed i) -> reach env true t (GNamed j) ->
     te_pkg env i = te_pkg env j -> te_name env i = te_name env j -> i = j) ->
  reach env true t (GNamed id) -> te_pkg env id = Some p ->
  exists x, definition_of env id x /\
    forall c, In c (register [] l) -> f_package c = p -> f_name c = te_name env id ->
      c = ParseResultToField x.
Proof.
  intros E Hall Hinj Hr Hp.
  destruct (named_registered _ _ _ _ _ _ _ _ _ E Hr Hp) as (x & Hx & Hd).
  exists x. split; auto. intros c Hc Pc Nc.
  destruct (register_from _ _ _ Hc) as [[]|(x' & Hx' & ->)].
  assert (Hx2 : In x' (fst (TypeResult n env true pkg "" t))) by now rewrite E.
  destruct (registered_only _ _ _ _ _ _ Hx2) as (id' & Hr' & Hd').
  destruct Hd' as (p' & rest'). assert (Hp' : te_pkg env id' = Some p').
  { destruct rest' as (? & ? & ? & ? & _). assumption. }
  assert (Hd' : definition_of env id' x') by (exists p'; exact rest').
  destruct (Hall _ _ Hr' Hp') as (Q0 & Qn & Qh).
  destruct (definition_key _ _ _ _ Hd' Hp' Qn Qh) as [K1 K2].
  assert (id' = id) by (apply Hinj; congruence). subst id'.
  f_equal. eapply definition_det; eauto.
Qed.
