(** Proofs about positions. *)
From Coq Require Import List String Bool Arith Lia.
From Verif Require Import BaseStr M_Types M_TypeTrav M_Position S_Position.
Import ListNotations.
Local Open Scope string_scope.

Section Induction.
  Context (P : stx -> Prop) (HT : forall k p l, Forall P l -> P (Tok k p l)) (HL : forall k b f a, Forall P b -> P f -> Forall P a -> P (Lead k b f a)).
  Fixpoint stx_ind' (s : stx) : P s :=
    match s with
    | Tok k p l => HT k p l ((fix go l : Forall P l := match l with [] => Forall_nil P | c :: r => Forall_cons c (stx_ind' c) (go r) end) l)
    | Lead k b f a => HL k b f a ((fix go l : Forall P l := match l with [] => Forall_nil P | c :: r => Forall_cons c (stx_ind' c) (go r) end) b) (stx_ind' f)
                        ((fix go l : Forall P l := match l with [] => Forall_nil P | c :: r => Forall_cons c (stx_ind' c) (go r) end) a)
    end.
End Induction.
Lemma children_ind (P : stx -> Prop) : (forall s, Forall P (children s) -> P s) -> forall s, P s.
Proof.
  intros H s. induction s as [k p l F|k b f a B F A] using stx_ind'; apply H; cbn; auto. apply Forall_app. split; auto.
Qed.

Fixpoint scans (pos : nat) (l : list stx) (r : option stx) : option stx := match l with [] => r | c :: l => scans pos l (scan pos c r) end.
Lemma scans_app pos a b r : scans pos (a ++ b) r = scans pos b (scans pos a r).
Proof. revert r. induction a; cbn; auto. Qed.
Lemma scan_eq pos s r : scan pos s r = if Nat.eqb (Pos s) pos then Some s else scans pos (children s) r.
Proof.
  assert (E : forall l r, (fix go (l : list stx) (result : option stx) := match l with [] => result | c :: r => go r (scan pos c result) end) l r = scans pos l r) by (induction l; cbn; auto).
  destruct s as [k p l|k b f a]; cbn [scan children Pos]; destruct (Nat.eqb _ pos); auto; rewrite !E; auto. now rewrite scans_app.
Qed.
Lemma pos_token s : In (Pos s) (tokens s).
Proof. induction s as [k p l F|k b f a B F A] using stx_ind'; cbn; auto. rewrite !in_app_iff. auto. Qed.
Lemma child_tokens s c : In c (children s) -> incl (tokens c) (tokens s).
Proof.
  intros I p T. assert (X : In p (flat_map tokens (children s))) by (apply in_flat_map; eauto). destruct s as [k q l|k b f a]; cbn in *; auto.
  rewrite flat_map_app in X. cbn in X. exact X.
Qed.
Lemma within_tokens s n : within s n -> incl (tokens n) (tokens s).
Proof. intros W. induction W as [|s c n I W IH]; [apply incl_refl|]. eapply incl_tran; eauto. now apply child_tokens. Qed.
Lemma outermost_within pos s n : outermost pos s n -> within s n /\ Pos n = pos.
Proof. intros O. induction O as [s E|s c n N I O (W & E)]; split; auto; econstructor; eauto. Qed.
Lemma outermost_token pos s n : outermost pos s n -> In pos (tokens s).
Proof. intros O. apply outermost_within in O as (W & <-). apply (within_tokens _ _ W), pos_token. Qed.
Lemma token_outermost pos s : In pos (tokens s) -> exists n, outermost pos s n.
Proof.
  induction s as [s F] using children_ind. intros I. destruct (Nat.eq_dec (Pos s) pos) as [E|N]; [exists s; now constructor|].
  assert (X : In pos (flat_map tokens (children s))).
  { destruct s as [k p l|k b f a]; cbn in *; [destruct I as [I|I]; [contradiction|auto]|]. now rewrite flat_map_app. }
  apply in_flat_map in X as (c & Ic & Tc). rewrite Forall_forall in F. destruct (F c Ic Tc) as (n & O). exists n. econstructor; eauto.
Qed.
Lemma nodup_children s : NoDup (tokens s) -> NoDup (flat_map tokens (children s)).
Proof. destruct s as [k p l|k b f a]; cbn; intros N; [now inversion N|]. now rewrite flat_map_app. Qed.
Lemma nodup_app {A} (a b : list A) : NoDup (a ++ b) -> NoDup a /\ NoDup b /\ forall x, In x a -> ~ In x b.
Proof.
  induction a as [|x a IH]; cbn; intros N; [repeat split; auto; constructor|]. inversion N as [|? ? X Y]; subst. destruct (IH Y) as (P & Q & R).
  rewrite in_app_iff in X. repeat split; auto; [constructor; auto|]. intros y [<-|I]; auto.
Qed.
Lemma nodup_child l c : NoDup (flat_map tokens l) -> In c l -> NoDup (tokens c).
Proof. induction l as [|x l IH]; cbn; intros N I; [destruct I|]. apply nodup_app in N as (P & Q & _). destruct I as [<-|I]; auto. Qed.
Lemma one_child l p c c' : NoDup (flat_map tokens l) -> In c l -> In c' l -> In p (tokens c) -> In p (tokens c') -> c = c'.
Proof.
  induction l as [|x l IH]; cbn; intros N I I' T T'; [destruct I|]. apply nodup_app in N as (_ & Q & D).
  destruct I as [<-|I], I' as [<-|I']; auto.
  - exfalso. apply (D p T). apply in_flat_map. eauto.
  - exfalso. apply (D p T'). apply in_flat_map. eauto.
Qed.
Lemma within_nodup s n : within s n -> NoDup (tokens s) -> NoDup (tokens n).
Proof. intros W. induction W as [|s c n I W IH]; auto. intros N. apply IH. apply nodup_children in N. eapply nodup_child; eauto. Qed.
Lemma outermost_one pos s n n' : NoDup (tokens s) -> outermost pos s n -> outermost pos s n' -> n = n'.
Proof.
  intros N O. revert n'. induction O as [s E|s c n E I O IH]; intros n' O'; inversion O' as [? E'|? c' ? E' I' O2]; subst; auto; try contradiction.
  apply nodup_children in N. assert (c' = c) by (eapply one_child; eauto using outermost_token). subst c'. apply IH; auto. eapply nodup_child; eauto.
Qed.

Lemma scan_spec pos s : forall r, (scan pos s r = r /\ ~ In pos (tokens s)) \/ exists n, scan pos s r = Some n /\ outermost pos s n.
Proof.
  induction s as [s F] using children_ind. intros r. rewrite scan_eq. destruct (Nat.eqb_spec (Pos s) pos) as [E|E]; [right; exists s; split; auto; now constructor|].
  assert (X : (scans pos (children s) r = r /\ ~ In pos (flat_map tokens (children s))) \/ exists n c, scans pos (children s) r = Some n /\ In c (children s) /\ outermost pos c n).
  { clear E. revert r. induction F as [|c l H _ IH]; intros r; cbn; [left; auto|].
    destruct (H r) as [(-> & T)|(n & -> & O)].
    - destruct (IH r) as [(-> & T')|(n & c' & -> & I & O)]; [left; split; auto; rewrite in_app_iff; tauto|right; exists n, c'; auto].
    - destruct (IH (Some n)) as [(-> & T')|(n' & c' & -> & I & O')]; right; [exists n, c; auto|exists n', c'; auto]. }
  destruct X as [(X & T)|(n & c & X & I & O)]; [left|right; exists n; split; auto; econstructor; eauto].
  split; auto. intros T'. apply T. destruct s as [k p l|k b f a]; cbn in *; [destruct T'; [contradiction|auto]|]. now rewrite flat_map_app.
Qed.
Lemma scan_outermost pos s n : NoDup (tokens s) -> (scan pos s None = Some n <-> outermost pos s n).
Proof.
  intros N. destruct (scan_spec pos s None) as [(-> & T)|(m & -> & O)]; split; intros H; try discriminate.
  - contradiction T. eapply outermost_token; eauto.
  - now injection H as <-.
  - f_equal. eapply outermost_one; eauto.
Qed.

(** *** File sets *)
Lemma filled_base fs : filled fs -> (forall f, In f fs -> 1 <= tf_base f /\ tf_base f + tf_size f < next_base fs) /\ 1 <= next_base fs.
Proof.
  intros F. induction F as [|fs name size F (IH & B) N D]; cbn; [split; [intros f []|auto]|]. split; [|lia].
  intros f [<-|I]; cbn; [lia|]. specialize (IH f I). lia.
Qed.
Lemma filled_Filename fs f p : filled fs -> In f fs -> tf_base f <= p <= tf_base f + tf_size f -> Filename fs p = tf_name f.
Proof.
  intros F I L. unfold Filename. assert (B := proj1 (filled_base fs F) f I). destruct (Nat.eqb_spec p 0); [lia|].
  induction F as [|fs name size F IH N D]; [destruct I|]. cbn [find AddFile]. destruct (filled_base fs F) as (B' & _).
  destruct I as [<-|I]; cbn in *.
  - replace (next_base fs <=? p)%nat with true by (symmetry; apply Nat.leb_le; lia). now replace (p <=? next_base fs + size)%nat with true by (symmetry; apply Nat.leb_le; lia).
  - specialize (B' f I). replace (next_base fs <=? p)%nat with false by (symmetry; apply Nat.leb_gt; lia). cbn. apply IH; auto; lia.
Qed.
Lemma filled_none_empty fs p : filled fs -> (forall f, In f fs -> ~ (tf_base f <= p <= tf_base f + tf_size f)) -> Filename fs p = "".
Proof.
  intros F. unfold Filename. destruct (Nat.eqb p 0); auto. induction F as [|fs name size F IH N D]; intros H; auto. cbn [find AddFile].
  destruct (_ && _) eqn:E; [|apply IH; intros f I; apply H; now right].
  apply andb_true_iff in E as (E1 & E2). apply Nat.leb_le in E1, E2. cbn in *. exfalso. apply (H (mkTF name (next_base fs) size)); cbn; auto.
Qed.

Lemma at_in_file fs pos files n : at_in fs pos files = Some n -> exists s, In s files /\ scan pos s None = Some n.
Proof.
  induction files as [|s files IH]; cbn; [discriminate|]. destruct (String.eqb _ _); [eauto|]. intros E. destruct (IH E) as (x & A & B). eauto.
Qed.
Lemma ASTAtPos_token L s pos : laid_out L -> In s (ld_syntax L) -> In pos (tokens s) -> ASTAtPos L pos = scan pos s None.
Proof.
  intros (F & T & D) I P. destruct (in_split _ _ I) as (a & b & E). unfold ASTAtPos. rewrite E.
  destruct (T s I) as (_ & f & If & R). assert (X : Filename (ld_files L) pos = Filename (ld_files L) (Pos s)).
  { rewrite !(filled_Filename _ f); auto. apply R, pos_token. }
  assert (Y := D a s b E). clear D E. induction a as [|x a IH]; cbn.
  - rewrite X. now rewrite String.eqb_refl.
  - destruct (String.eqb_spec (Filename (ld_files L) pos) (Filename (ld_files L) (Pos x))) as [Z|Z]; [exfalso; apply (Y x); [now left|congruence]|].
    apply IH. intros y Iy. apply Y. now right.
Qed.
Lemma ASTAtPos_spec L pos n : laid_out L -> (ASTAtPos L pos = Some n <-> exists s, In s (ld_syntax L) /\ outermost pos s n).
Proof.
  intros H. assert (ND := fun s I => proj1 (proj1 (proj2 H) s I)). split.
  - intros E. unfold ASTAtPos in E. apply at_in_file in E as (s & I & E). exists s. split; auto. apply scan_outermost; auto.
  - intros (s & I & O). rewrite (ASTAtPos_token L s pos); auto; [apply scan_outermost; auto|]. eapply outermost_token; eauto.
Qed.

(** *** Fields *)
Lemma above_field p s T x : within s T -> NoDup (tokens s) -> forall k b l, T = Tok k b l -> In x l -> In p (tokens x) -> Pos s <> p.
Proof.
  intros W. induction W as [s|s c T I W IH]; intros N k b l -> X P.
  - cbn in *. inversion N as [|? ? A B]; subst. intros E. apply A. rewrite E. apply in_flat_map. exists x. auto.
  - assert (Nc := nodup_children _ N). assert (TX : In p (tokens c)).
    { apply (within_tokens _ _ W). apply (child_tokens _ x); auto. }
    destruct s as [k' q l'|k' b' f a]; cbn [Pos children] in *.
    + intros E. cbn in N. inversion N as [|? ? A B]; subst. apply A. apply in_flat_map. eauto.
    + intros E. assert (c = f).
      { apply (one_child (b' ++ f :: a) p); auto; [apply in_app_iff; right; now left|]. rewrite <- E. apply pos_token. }
      subst c. apply (IH (nodup_child _ _ Nc I) k b l eq_refl X P E).
Qed.
Lemma field_part p file x n : NoDup (tokens file) -> struct_field_of file x -> outermost p x n -> outermost p file n.
Proof.
  intros N (k & b & l & W & I) O. assert (P := outermost_token _ _ _ O). remember (Tok k b l) as T eqn:ET. revert N. induction W as [s|s c T Ic W IH]; intros N.
  - apply (outermost_child _ _ x); auto.
    + eapply (above_field p s s x); eauto. constructor.
    + now subst s.
  - apply (outermost_child _ _ c); auto.
    + eapply (above_field p s T x); eauto. now apply (within_child s c).
    + apply IH; auto. apply nodup_children in N. eapply nodup_child; eauto.
Qed.
Lemma struct_field_within file x : struct_field_of file x -> within file x.
Proof.
  intros (k & b & l & W & I). remember (Tok k b l) as T eqn:ET. induction W as [s|s c T Ic W IH].
  - apply (within_child _ x); [now subst s|constructor].
  - apply (within_child _ c); auto.
Qed.

Lemma first_name doc comments n more rest : outermost (snd n) (named_field doc comments n more rest) (named_field doc comments n more rest).
Proof. now constructor. Qed.
Lemma later_name doc comments n more rest m : NoDup (tokens (named_field doc comments n more rest)) -> In m more ->
  outermost (snd m) (named_field doc comments n more rest) (ident m).
Proof.
  intros N I. apply (outermost_child _ _ (ident m)).
  - cbn in *. apply nodup_app in N as (_ & N & _). rewrite flat_map_app in N. inversion N as [|? ? A B]; subst. intros E. apply A. rewrite E, in_app_iff. left.
    apply in_flat_map. exists (ident m). split; [now apply in_map|cbn; auto].
  - cbn. rewrite !in_app_iff. right. right. rewrite in_app_iff. left. now apply in_map.
  - now constructor.
Qed.
Lemma plain_pos t n : plain t -> embeds t n -> Pos t = snd n.
Proof. intros P. revert n. induction P as [m|t args P IH]; intros n E; inversion E; subst; cbn; auto. Qed.
Lemma embeds_token t n : embeds t n -> In (snd n) (tokens t).
Proof. intros E. induction E; cbn; rewrite ?in_app_iff; auto. Qed.
(** A name that the type does not begin with is found itself. *)
Lemma embeds_found t n : embeds t n -> ~ plain t -> NoDup (tokens t) -> exists x, outermost (snd n) t x /\ Pos t <> snd n /\ exists w, kind_of x = KOther w.
Proof.
  intros E. induction E as [n|x n|t args n E IH|star t n E IH]; intros NP N.
  - contradiction NP. constructor.
  - exists (ident n). cbn in N. inversion N as [|? ? A B]; subst. cbn in A. assert (snd x <> snd n) by intuition.
    split; [|split; [cbn; auto|eexists; reflexivity]]. apply (outermost_child _ _ (ident n)); cbn; auto. now constructor.
  - assert (Nt : NoDup (tokens t)) by (cbn in N; now apply nodup_app in N). destruct IH as (x & O & P & K); auto; [intros H; apply NP; now constructor|].
    exists x. split; [|split; auto]. apply (outermost_child _ _ t); cbn; auto.
  - assert (T := embeds_token _ _ E). cbn in N. rewrite List.app_nil_r in N. inversion N as [|? ? A B]; subst.
    assert (NE : star <> snd n) by (intros ->; contradiction).
    destruct (token_outermost _ _ T) as (x & O). exists x. split; [apply (outermost_child _ _ t); cbn; auto|]. split; [exact NE|].
    assert (K : forall t n, embeds t n -> forall y, within t y -> Pos y = snd n -> NoDup (tokens t) -> exists w, kind_of y = KOther w).
    { clear. intros t n E. induction E as [n|x n|t args n E IH|star t n E IH]; intros y W P N.
      - inversion W as [|? c ? Ic]; subst; [eexists; reflexivity|destruct Ic].
      - inversion W as [|? c ? Ic W']; subst; [eexists; reflexivity|]. destruct Ic as [<-|[<-|[]]]; inversion W' as [|? c ? Ic]; subst; try (eexists; reflexivity); destruct Ic.
      - inversion W as [|? c ? Ic W']; subst; [eexists; reflexivity|]. cbn in N. apply nodup_app in N as (Nt & _ & D). destruct Ic as [<-|Ic]; [now apply IH|].
        exfalso. apply (D (snd n) (embeds_token _ _ E)). apply in_flat_map. exists c. split; auto. rewrite <- P. apply (within_tokens _ _ W'), pos_token.
      - inversion W as [|? c ? Ic W']; subst; [eexists; reflexivity|]. cbn in N. rewrite List.app_nil_r in N. inversion N; subst. destruct Ic as [<-|[]]. now apply IH. }
    apply outermost_within in O as (W & Px). exact (K t n E x W Px B).
Qed.
Lemma embeds_plain t n : embeds t n -> plain t \/ ~ plain t.
Proof.
  induction 1 as [m|x m|t args m E [IH|IH]|star t m E IH].
  - left. constructor.
  - right. intros H. inversion H.
  - left. now constructor.
  - right. intros H. apply IH. inversion H. subst. assumption.
  - right. intros H. inversion H.
Qed.
