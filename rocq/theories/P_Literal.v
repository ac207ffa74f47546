(** Proofs: strconv.Unquote follows the language specification. *)
From Coq Require Import List String Ascii Bool NArith Arith ZArith Lia ZifyN ZifyNat.
From Verif Require Import BaseStr M_Types M_Tags M_TypeTrav S_Literal.
Import ListNotations.
Local Open Scope string_scope.
Ltac Zify.zify_post_hook ::= Z.to_euclidean_division_equations.

Lemma utf8_spec n u : M_Tags.utf8 n = Some u <-> encodes n u.
Proof.
  unfold M_Tags.utf8. split.
  - destruct (N.ltb_spec n 128). { intros [= <-]. now apply en_1. }
    destruct (N.ltb_spec n 2048).
    { intros [= <-]. apply (en_2 (n / 64) (n mod 64)); lia. }
    destruct (N.leb_spec 55296 n), (N.leb_spec n 57343); cbn [andb]; try discriminate.
    all: destruct (N.ltb_spec n 65536); [intros [= <-]; apply (en_3 (n / 4096) ((n / 64) mod 64) (n mod 64)); lia|].
    all: destruct (N.ltb_spec n 1114112); [|discriminate]; intros [= <-]; apply (en_4 (n / 262144) ((n / 4096) mod 64) ((n / 64) mod 64) (n mod 64)); lia.
  - intros H. destruct H as [a A|a b n A B E L|a b c n A B C E L S|a b c d n A B C D E L U].
    + destruct (N.ltb_spec a 128); [reflexivity|lia].
    + destruct (N.ltb_spec n 128); [lia|]. destruct (N.ltb_spec n 2048); [|lia].
      assert (n / 64 = a)%N as -> by lia. assert (n mod 64 = b)%N as -> by lia. reflexivity.
    + destruct (N.ltb_spec n 128); [lia|]. destruct (N.ltb_spec n 2048); [lia|].
      replace (N.leb 55296 n && N.leb n 57343) with false by (destruct (N.leb_spec 55296 n), (N.leb_spec n 57343); auto; lia).
      destruct (N.ltb_spec n 65536); [|lia].
      assert (n / 4096 = a)%N as -> by lia. assert ((n / 64) mod 64 = b)%N as -> by lia. assert (n mod 64 = c)%N as -> by lia. reflexivity.
    + destruct (N.ltb_spec n 128); [lia|]. destruct (N.ltb_spec n 2048); [lia|].
      replace (N.leb 55296 n && N.leb n 57343) with false by (destruct (N.leb_spec 55296 n), (N.leb_spec n 57343); auto; lia).
      destruct (N.ltb_spec n 65536); [lia|]. destruct (N.ltb_spec n 1114112); [|lia].
      assert (n / 262144 = a)%N as -> by lia. assert ((n / 4096) mod 64 = b)%N as -> by lia. assert ((n / 64) mod 64 = c)%N as -> by lia. assert (n mod 64 = d)%N as -> by lia. reflexivity.
Qed.

Lemma hex_spec c d : hex_val c = Some d <-> hex_digit c d.
Proof.
  split.
  - destruct c as [[] [] [] [] [] [] [] []]; intros H; vm_compute in H; try discriminate H; injection H as <-; (left; reflexivity) || (right; reflexivity).
  - intros [H|H]; do 16 (destruct d as [|d]; [injection H as <-; reflexivity|]); discriminate.
Qed.
Lemma oct_spec c d : oct_val c = Some d <-> octal_digit c d.
Proof.
  split.
  - destruct c as [[] [] [] [] [] [] [] []]; intros H; vm_compute in H; try discriminate H; injection H as <-; reflexivity.
  - intros H. do 8 (destruct d as [|d]; [injection H as <-; reflexivity|]). discriminate.
Qed.
Lemma digits_spec dv digit base : (forall c d, dv c = Some d <-> digit c d) -> forall k m s n rest,
  digits dv base k m s = Some (n, rest) <-> exists t, s = t ++ rest /\ String.length t = k /\ number digit base m t n.
Proof.
  intros D. induction k as [|k IH]; intros m s n rest; cbn [digits].
  - split; [intros [= <- <-]; exists ""; repeat split; constructor|]. intros ([|] & -> & L & N); [|discriminate]. inversion N. reflexivity.
  - destruct s as [|c r].
    + split; [discriminate|]. intros ([|c t] & E & L & N); discriminate.
    + destruct (dv c) as [d|] eqn:E.
      * rewrite IH. split.
        -- intros (t & -> & L & N). exists (String c t). repeat split; [cbn; congruence|]. econstructor; [apply D; exact E|exact N].
        -- intros ([|c' t] & E' & L & N); [discriminate|]. injection E' as <- ->. exists t. injection L as L. repeat split; auto.
           inversion N as [|? ? d' ? ? Hd Hn]; subst. apply D in Hd. rewrite E in Hd. injection Hd as <-. exact Hn.
      * split; [discriminate|]. intros ([|c' t] & E' & L & N); [discriminate|]. injection E' as <- ->.
        inversion N as [|? ? d' ? ? Hd Hn]; subst. apply D in Hd. congruence.
Qed.

Lemma escape_spec e x : simple_escape e = Some x <-> exists n, In (e, n) escapes /\ x = ascii_of_N n.
Proof.
  split.
  - destruct e as [[] [] [] [] [] [] [] []]; intros H; vm_compute in H; try discriminate H; injection H as <-; eexists; (split; [cbn; tauto|reflexivity]).
  - intros (n & H & ->). cbn in H. repeat (destruct H as [H|H]; [injection H as <- <-; reflexivity|]). destruct H.
Qed.

Lemma cons_opt_spec p o v : cons_opt p o = Some v <-> exists w, o = Some w /\ v = p ++ w.
Proof. destruct o as [w|]; cbn; split; [intros [= <-]; eauto|intros (x & [= <-] & ->); reflexivity|discriminate|intros (x & E & _); discriminate]. Qed.

Lemma octal_start c d : octal_digit c d -> simple_escape c = None /\ Ascii.eqb c "x" = false /\ Ascii.eqb c "u" = false /\ Ascii.eqb c "U" = false.
Proof. intros H. do 8 (destruct d as [|d]; [injection H as <-; repeat split|]). discriminate. Qed.

Lemma unquote_body_spec : forall fuel s v, String.length s <= fuel -> (unquote_body fuel s = Some v <-> literal s v).
Proof.
  induction fuel as [|fuel IH]; intros s v L.
  { destruct s; [|cbn in L; lia]. cbn. split; [intros [= <-]; constructor|intros H; inversion H; reflexivity]. }
  destruct s as [|c r]; [cbn; split; [intros [= <-]; constructor|intros H; inversion H; reflexivity]|].
  cbn [String.length] in L. cbn [unquote_body].
  assert (HB : backslash = bslash) by reflexivity. assert (HN : newline = "010"%char) by reflexivity. assert (HQ : M_Tags.dquote = "034"%char) by reflexivity.
  assert (Len : forall d rest, r = d ++ rest -> String.length rest <= fuel) by (intros d rest ->; rewrite length_append in L; lia).
  destruct (Ascii.eqb_spec c newline) as [->|Nn].
  { cbn [orb]. split; [discriminate|]. intros H. inversion H; congruence. }
  destruct (Ascii.eqb_spec c M_Tags.dquote) as [->|Nq].
  { cbn [orb]. split; [discriminate|]. intros H. inversion H; congruence. }
  cbn [orb]. destruct (Ascii.eqb_spec c backslash) as [->|Nb]; cbn [negb].
  2: { rewrite cons_opt_spec. split.
       - intros (w & E & ->). apply IH in E; [|lia]. constructor; auto.
       - intros H. inversion H; subst; try congruence. eexists. split; [apply IH; [lia|eassumption]|reflexivity]. }
  destruct r as [|e r'].
  { split; [discriminate|]. intros H. inversion H as [| |? ? ? ? Hi|d n s v' (Ld & _)| | |]; subst; try congruence; try discriminate.
    destruct d; [discriminate|discriminate]. }
  assert (Len' : forall d rest, r' = d ++ rest -> String.length rest <= fuel) by (intros d rest ->; cbn in L; rewrite length_append in L; lia).
  destruct (simple_escape e) as [x|] eqn:Ex.
  { rewrite cons_opt_spec. pose proof (proj1 (escape_spec e x) Ex) as (n & Hn & ->). split.
    - intros (w & E & ->). apply IH in E; [|cbn in L; lia]. now apply (li_escape e n).
    - intros H. inversion H as [| |e' n' s' v' Hi Hl|d n' s' v' (Ld & Nd) _ Hl E|d n' s' v' Hd Hl E|d n' u s' v' Hd He Hl E|d n' u s' v' Hd He Hl E]; subst; try congruence.
      + eexists. split; [apply IH; [cbn in L; lia|eassumption]|].
        assert (Y : simple_escape e = Some (ascii_of_N n')) by (apply escape_spec; eauto). rewrite Ex in Y. injection Y as ->. reflexivity.
      + destruct d as [|c d]; [discriminate|]. injection E as -> _. inversion Nd; subst. destruct (octal_start _ _ H3) as (Z & _). congruence.
      + vm_compute in Ex. discriminate.
      + vm_compute in Ex. discriminate.
      + vm_compute in Ex. discriminate. }
  assert (NE : forall n, ~ In (e, n) escapes) by (intros n Hn; assert (Y : simple_escape e = Some (ascii_of_N n)) by (apply escape_spec; eauto); congruence).
  destruct (Ascii.eqb_spec e "x") as [->|Nx].
  { destruct (digits hex_val 16 2 0 r') as [(n, rest)|] eqn:D.
    - rewrite cons_opt_spec. apply (digits_spec _ _ _ hex_spec) in D as D'. destruct D' as (t & -> & Lt & Nt). split.
      + intros (w & E & ->). apply IH in E; [|eauto]. apply (li_hex t n); auto. now split.
      + intros H. inversion H as [| |e' n' s' v' Hi Hl|d n' s' v' (Ld & Nd) _ Hl E|d n' s' v' (Ld & Nd) Hl E| |]; subst; try congruence.
        * now apply NE in Hi.
        * destruct d as [|c d]; [discriminate|]. injection E as -> _. inversion Nd; subst. destruct (octal_start _ _ H3) as (_ & Z & _). discriminate.
        * assert (Y : digits hex_val 16 2 0 (t ++ rest) = Some (n', s')) by (apply (digits_spec _ _ _ hex_spec); eauto).
          rewrite D in Y. injection Y as <- <-. eexists. split; [apply IH; [eauto|eassumption]|reflexivity].
    - split; [discriminate|]. intros H. inversion H as [| |e' n' s' v' Hi Hl|d n' s' v' (Ld & Nd) _ Hl E|d n' s' v' (Ld & Nd) Hl E| |]; subst; try congruence.
      + now apply NE in Hi.
      + destruct d as [|c d]; [discriminate|]. injection E as -> _. inversion Nd; subst. destruct (octal_start _ _ H3) as (_ & Z & _). discriminate.
      + assert (Y : digits hex_val 16 2 0 (d ++ s') = Some (n', s')) by (apply (digits_spec _ _ _ hex_spec); eauto). congruence. }
  assert (Rune : forall k,
    match digits hex_val 16 k 0 r' with
    | Some (n, rest) => match M_Tags.utf8 n with Some u => cons_opt u (unquote_body fuel rest) | None => None end
    | None => None end = Some v <->
    exists d n u s w, r' = d ++ s /\ digits_of hex_digit 16 k d n /\ encodes n u /\ literal s w /\ v = u ++ w).
  { intros k. split.
    - destruct (digits hex_val 16 k 0 r') as [(n, rest)|] eqn:D; [|discriminate]. destruct (M_Tags.utf8 n) as [u|] eqn:U; [|discriminate].
      rewrite cons_opt_spec. intros (w & E & ->). apply (digits_spec _ _ _ hex_spec) in D as (t & -> & Lt & Nt).
      exists t, n, u, rest, w. repeat split; auto; [now apply utf8_spec|apply IH; eauto].
    - intros (d & n & u & s & w & -> & (Ld & Nd) & En & Hl & ->).
      assert (Y : digits hex_val 16 k 0 (d ++ s) = Some (n, s)) by (apply (digits_spec _ _ _ hex_spec); eauto).
      rewrite Y. apply utf8_spec in En. rewrite En. apply cons_opt_spec. exists w. split; auto. apply IH; eauto. }
  destruct (Ascii.eqb_spec e "u") as [->|Nu].
  { rewrite Rune. split.
    - intros (d & n & u & s & w & -> & Hd & En & Hl & ->). now apply (li_rune d n).
    - intros H. inversion H as [| |e' n' s' v' Hi Hl|d n' s' v' (Ld & Nd) _ Hl E|d n' s' v' (Ld & Nd) Hl E|d n' u s' v' Hd He Hl E|]; subst; try congruence.
      + now apply NE in Hi.
      + destruct d as [|c d]; [discriminate|]. injection E as -> _. inversion Nd; subst. destruct (octal_start _ _ H3) as (_ & _ & Z & _). discriminate.
      + exists d, n', u, s', v'. auto. }
  destruct (Ascii.eqb_spec e "U") as [->|NU].
  { rewrite Rune. split.
    - intros (d & n & u & s & w & -> & Hd & En & Hl & ->). now apply (li_long d n).
    - intros H. inversion H as [| |e' n' s' v' Hi Hl|d n' s' v' (Ld & Nd) _ Hl E|d n' s' v' (Ld & Nd) Hl E| |d n' u s' v' Hd He Hl E]; subst; try congruence.
      + now apply NE in Hi.
      + destruct d as [|c d]; [discriminate|]. injection E as -> _. inversion Nd; subst. destruct (octal_start _ _ H3) as (_ & _ & _ & Z). discriminate.
      + exists d, n', u, s', v'. auto. }
  split.
  - destruct (digits oct_val 8 3 0 (String e r')) as [(n, rest)|] eqn:D; [|discriminate]. destruct (N.leb_spec n 255); [|discriminate].
    rewrite cons_opt_spec. intros (w & E & ->). apply (digits_spec _ _ _ oct_spec) in D as (t & Et & Lt & Nt). rewrite Et.
    apply (li_octal t n); auto; [now split|]. apply IH; [eauto|exact E].
  - intros H. inversion H as [| |e' n' s' v' Hi Hl|d n' s' v' (Ld & Nd) Hm Hl E| | |]; subst; try congruence.
    + now apply NE in Hi.
    + assert (Y : digits oct_val 8 3 0 (String e r') = Some (n', s')) by (rewrite <- E; apply (digits_spec _ _ _ oct_spec); eauto).
      rewrite ?E, Y. apply N.leb_le in Hm. rewrite Hm. apply cons_opt_spec. exists v'. split; [apply IH; [eauto|exact Hl]|reflexivity].
Qed.
Lemma unquote_spec s v : unquote s = Some v <-> literal s v.
Proof. apply unquote_body_spec. auto. Qed.

Lemma space_spec x : In x space_runes <-> exists n, white_space n /\ encodes n x.
Proof.
  split.
  - intros H. repeat (destruct H as [<-|H]; [match goal with |- exists n, _ /\ encodes n ?s => idtac end|]); [..|destruct H].
    all: match goal with |- exists n, _ /\ encodes n ?s =>
      let f := constr:(fun n => match M_Tags.utf8 n with Some u => String.eqb u s | None => false end) in
      let l := constr:([9; 10; 11; 12; 13; 32; 133; 160; 5760; 8192; 8193; 8194; 8195; 8196; 8197; 8198; 8199; 8200; 8201; 8202; 8232; 8233; 8239; 8287; 12288]%N) in
      let r := eval vm_compute in (find f l) in
      match r with Some ?n => exists n; split; [unfold white_space; lia|apply utf8_spec; vm_compute; reflexivity] end end.
  - intros (n & W & E). apply utf8_spec in E. unfold white_space in W.
    assert (C : In n (map N.of_nat [9; 10; 11; 12; 13; 32; 133; 160])%nat \/ In n [5760; 8192; 8193; 8194; 8195; 8196; 8197; 8198; 8199; 8200; 8201; 8202; 8232; 8233; 8239; 8287; 12288]%N) by (cbn; lia).
    cbn in C. repeat (destruct C as [C|C] || destruct C as [[C|C]|C]); try (destruct C as [<-|C]).
    all: try contradiction.
    all: subst n; vm_compute in E; injection E as <-; vm_compute; tauto.
Qed.
