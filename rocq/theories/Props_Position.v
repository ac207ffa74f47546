(** C78: comments of fields are looked up by position. *)
From Coq Require Import List String Bool Arith Lia.
From Verif Require Import BaseStr M_Types M_Collect M_TypeTrav M_Position S_TypeTrav S_Position P_TypeTrav P_Fields P_Position Props_TypeTrav.
Import ListNotations.
Local Open Scope string_scope.

(** C78: ASTAtPos finds, in a package as it is laid out by the parser, exactly the outermost node that begins at the position. *)
Theorem C78_outermost :
  forall L pos n, laid_out L -> (ASTAtPos L pos = Some n <-> exists s, In s (ld_syntax L) /\ outermost pos s n).
Proof. exact ASTAtPos_spec. Qed.
Print Assumptions C78_outermost.

Lemma answered world home L file x p n : world home = Some L -> laid_out L -> In file (ld_syntax L) -> struct_field_of file x -> outermost p x n ->
  answer world p home = Some (node_of n).
Proof.
  intros W LO I S O. unfold answer. rewrite W. assert (E : ASTAtPos L p = Some n); [|now rewrite E].
  apply ASTAtPos_spec; auto. exists file. split; auto. apply (field_part p file x); auto. apply (proj1 (proj2 LO) file I).
Qed.
Lemma field_nodup L file x : laid_out L -> In file (ld_syntax L) -> struct_field_of file x -> NoDup (tokens x).
Proof. intros LO I S. apply (within_nodup file); [now apply struct_field_within|apply (proj1 (proj2 LO) file I)]. Qed.

(** C78, in part: a field has its own comment if it is the first name of its declaration, and its type belongs to the package that the struct was loaded with. *)
Theorem C78_comment_partial :
  forall world home L file doc comments n more rest f env fuel add name fs l r,
    world home = Some L -> laid_out L -> In file (ld_syntax L) -> struct_field_of file (named_field doc comments n more rest) ->
    seen world f (snd n) -> described_in env (Some home) (gf_type f) = Some home ->
    TypeResult fuel env add (Some home) name (GStruct fs) = (l, Ok r) -> In f fs -> gf_exported f = true ->
    exists x, In (gf_name f, x) (f_structFields (ParseResultToField r)) /\ f_doc x = FormatDoc doc.
Proof.
  intros world home L file doc comments n more rest f env fuel add name fs l r W LO I S At D E F X.
  destruct (field_docs _ _ _ _ _ _ _ _ _ E F X) as (x & Ix & Dx). exists x. split; auto. rewrite Dx, D, At, (answered _ _ _ _ _ _ _ W LO I S (first_name _ _ _ _ _)). reflexivity.
Qed.
Print Assumptions C78_comment_partial.

(** C78: the other names of a declaration never have its comment. *)
Theorem C78_later_lost :
  forall world home L file doc comments n more rest m f env fuel add name fs l r,
    world home = Some L -> laid_out L -> In file (ld_syntax L) -> struct_field_of file (named_field doc comments n more rest) -> In m more ->
    seen world f (snd m) -> described_in env (Some home) (gf_type f) = Some home ->
    TypeResult fuel env add (Some home) name (GStruct fs) = (l, Ok r) -> In f fs -> gf_exported f = true ->
    exists x, In (gf_name f, x) (f_structFields (ParseResultToField r)) /\ f_doc x = "".
Proof.
  intros world home L file doc comments n more rest m f env fuel add name fs l r W LO I S M At D E F X.
  destruct (field_docs _ _ _ _ _ _ _ _ _ E F X) as (x & Ix & Dx). exists x. split; auto.
  rewrite Dx, D, At, (answered _ _ _ _ _ _ _ W LO I S (later_name _ _ _ _ _ _ (field_nodup _ _ _ LO I S) M)). reflexivity.
Qed.
Print Assumptions C78_later_lost.

(** C78: embedded types behind a star or of other packages have no comment. *)
Theorem C78_embedded_lost :
  forall world home L file doc comments t rest n f env fuel add name fs l r,
    world home = Some L -> laid_out L -> In file (ld_syntax L) -> struct_field_of file (embedded_field doc comments t rest) -> embeds t n -> ~ plain t ->
    seen world f (snd n) -> described_in env (Some home) (gf_type f) = Some home ->
    TypeResult fuel env add (Some home) name (GStruct fs) = (l, Ok r) -> In f fs -> gf_exported f = true ->
    exists x, In (gf_name f, x) (f_structFields (ParseResultToField r)) /\ f_doc x = "".
Proof.
  intros world home L file doc comments t rest n f env fuel add name fs l r W LO I S M NP At D E F X.
  destruct (field_docs _ _ _ _ _ _ _ _ _ E F X) as (x & Ix & Dx). exists x. split; auto.
  assert (N := field_nodup _ _ _ LO I S). cbn in N. apply nodup_app in N as (_ & N & _). apply nodup_app in N as (N & _).
  destruct (embeds_found _ _ M NP N) as (y & O & P & w & K).
  assert (O' : outermost (snd n) (embedded_field doc comments t rest) y). { apply (outermost_child _ _ t); cbn; auto. apply in_app_iff. right. now left. }
  rewrite Dx, D, At, (answered _ _ _ _ _ _ _ W LO I S O'). unfold node_of. now rewrite K.
Qed.
Print Assumptions C78_embedded_lost.

(** C78: a struct that embeds an exported type of its own package by its name is never described: the analysis does not come to a result. *)
Theorem C78_embedded_fails :
  forall world home L file doc comments t rest n f env fuel add name fs,
    world home = Some L -> laid_out L -> In file (ld_syntax L) -> struct_field_of file (embedded_field doc comments t rest) -> embeds t n -> plain t ->
    seen world f (snd n) -> described_in env (Some home) (gf_type f) = Some home -> In f fs -> gf_exported f = true ->
    forall l r, TypeResult fuel env add (Some home) name (GStruct fs) <> (l, Ok r).
Proof.
  intros world home L file doc comments t rest n f env fuel add name fs W LO I S M PL At D F X l r E.
  assert (O : outermost (snd n) (embedded_field doc comments t rest) (embedded_field doc comments t rest)) by (apply outermost_here; exact (plain_pos _ _ PL M)).
  assert (A := answered _ _ _ _ _ _ _ W LO I S O). destruct fuel as [|k]; [discriminate|]. cbn [TypeResult] in E.
  destruct (struct_fields env (TypeResult k env add (Some home) "") fs) as (l1, [kvs|e| |]) eqn:Es; cbn in E; try discriminate.
  apply struct_fields_entries in Es. assert (Hin : In f (filter gf_exported fs)) by (apply filter_In; auto). clear - Es Hin A At D.
  induction Es as [|g kv gs kvs (l1 & r & r' & E1 & E2 & _) Es IH]; [destruct Hin|]. destruct Hin as [->|Hin]; auto.
  unfold field_doc in E2. rewrite (result_package _ _ _ _ _ _ _ _ E1), D, At, A in E2. discriminate.
Qed.
Print Assumptions C78_embedded_fails.

(** C78: where the type checker has the variable of a field: at one of the names, or at the name of the embedded type. *)
Inductive declared : stx -> nat -> Prop :=
| declared_name doc comments n more rest m : In m (n :: more) -> declared (named_field doc comments n more rest) (snd m)
| declared_type doc comments t rest n : embeds t n -> declared (embedded_field doc comments t rest) (snd n).
(** C78: looked up in its own package, the variable of a field is found to be a field without a name exactly if it is an embedded type that is written as a name. *)
Theorem C78_own_package :
  forall world home L file x pos, world home = Some L -> laid_out L -> In file (ld_syntax L) -> struct_field_of file x -> declared x pos ->
    ((exists d, answer world pos home = Some (NField [] d)) <-> exists doc comments t rest n, x = embedded_field doc comments t rest /\ embeds t n /\ snd n = pos /\ plain t).
Proof.
  intros world home L file x pos W LO I S D. split.
  - intros (d & A). inversion D as [doc comments n more rest m Hm Ex Ep|doc comments t rest n M Ex Ep]; subst x pos.
    + exfalso. destruct Hm as [->|Hm].
      * rewrite (answered _ _ _ _ _ _ _ W LO I S (first_name _ _ _ _ _)) in A. discriminate.
      * rewrite (answered _ _ _ _ _ _ _ W LO I S (later_name _ _ _ _ _ _ (field_nodup _ _ _ LO I S) Hm)) in A. discriminate.
    + exists doc, comments, t, rest, n. do 3 (split; auto). destruct (embeds_plain _ _ M) as [P|NP]; auto. exfalso.
      assert (N := field_nodup _ _ _ LO I S). cbn in N. apply nodup_app in N as (_ & N & _). apply nodup_app in N as (N & _).
      destruct (embeds_found _ _ M NP N) as (y & O & P & w & K).
      assert (O' : outermost (snd n) (embedded_field doc comments t rest) y). { apply (outermost_child _ _ t); cbn; auto. apply in_app_iff. right. now left. }
      rewrite (answered _ _ _ _ _ _ _ W LO I S O') in A. unfold node_of in A. rewrite K in A. discriminate.
  - intros (doc & comments & t & rest & n & -> & M & <- & PL). exists doc.
    assert (O : outermost (snd n) (embedded_field doc comments t rest) (embedded_field doc comments t rest)) by (apply outermost_here; exact (plain_pos _ _ PL M)).
    rewrite (answered _ _ _ _ _ _ _ W LO I S O). reflexivity.
Qed.
Print Assumptions C78_own_package.

(** *** Sources *)
(** package m; type T struct { fields } *)
Definition source_of (fields : list stx) : stx :=
  Tok (KOther "package") 1 [ident ("m", 9); Tok (KOther "type") 11 [Lead (KOther "spec") [] (ident ("T", 16)) [Tok (KOther "struct") 18 [Tok (KOther "{") 25 fields]]]].
Definition file_set (name : string) : fileset := AddFile name 100 [].
Definition loaded_of (name : string) (fields : list stx) : loaded := mkLoaded (file_set name) [source_of fields].
Lemma source_laid name fields : name <> "" -> NoDup (tokens (source_of fields)) -> (forall p, In p (flat_map tokens fields) -> 1 <= p <= 101) -> laid_out (loaded_of name fields).
Proof.
  intros NE N R. split; [constructor; [constructor|exact NE|intros f []]|]. split.
  - intros s [<-|[]]. split; auto. exists (mkTF name 1 100). split; [now left|]. cbn. intros p [<-|[<-|[<-|[<-|[<-|[<-|H]]]]]]; try lia.
    rewrite !List.app_nil_r in H. now apply R.
  - intros a b l E s I. destruct a as [|x [|y a]]; try destruct I; cbn in E; discriminate.
Qed.
Lemma source_field fields x : In x fields -> struct_field_of (source_of fields) x.
Proof.
  intros I. exists (KOther "{"), 25, fields. split; auto. unfold source_of.
  apply (within_child _ (Tok (KOther "type") 11 [Lead (KOther "spec") [] (ident ("T", 16)) [Tok (KOther "struct") 18 [Tok (KOther "{") 25 fields]]])); [cbn; auto|].
  eapply within_child; [left; reflexivity|]. eapply within_child; [right; left; reflexivity|]. eapply within_child; [left; reflexivity|]. constructor.
Qed.
Ltac distinct := repeat constructor; cbn; intuition discriminate.
Ltac ranges := let p := fresh in let H := fresh in intros p H; cbn in H; intuition lia.
Definition field_at (world : string -> option loaded) (name : string) (embedded : bool) (t : gtype) (pos : nat) : gfield gtype :=
  mkGF name true embedded "" t (answer world pos).

(** A, B string with a comment. *)
Definition two_names : stx := named_field "why" [Tok (KOther "//") 27 []] ("A", 34) [("B", 37)] [ident ("string", 39)].
Definition two_world (p : string) : option loaded := if String.eqb p "m" then Some (loaded_of "a.go" [two_names]) else None.
Lemma two_laid : laid_out (loaded_of "a.go" [two_names]).
Proof. apply source_laid; [discriminate|distinct|ranges]. Qed.

(** C78, refuted: of two names with one comment the second has none. *)
Theorem C78_refuted_later :
  exists world L file doc comments n more rest m f l r x,
    world "m" = Some L /\ laid_out L /\ In file (ld_syntax L) /\ struct_field_of file (named_field doc comments n more rest) /\ In m more /\
    seen world f (snd m) /\ FormatDoc doc = "why" /\
    TypeResult 9 error_env true (Some "m") "" (GStruct [f]) = (l, Ok r) /\ f_structFields (ParseResultToField r) = [(gf_name f, x)] /\ f_doc x = "".
Proof.
  exists two_world, (loaded_of "a.go" [two_names]), (source_of [two_names]), "why", [Tok (KOther "//") 27 []], ("A", 34), [("B", 37)], [ident ("string", 39)], ("B", 37), (field_at two_world "B" false tstring 37).
  do 3 eexists. split; [reflexivity|]. split; [exact two_laid|]. split; [now left|]. split; [apply source_field; now left|]. split; [now left|].
  split; [intros p; reflexivity|]. split; [reflexivity|]. split; [vm_compute; reflexivity|]. split; [cbn; reflexivity|reflexivity].
Qed.
Print Assumptions C78_refuted_later.

(** C78, refuted: a struct that embeds a type of its own package makes the run panic. *)
Definition base_field : stx := embedded_field "" [] (ident ("Base", 34)) [].
Definition base_world (p : string) : option loaded := if String.eqb p "m" then Some (loaded_of "a.go" [base_field]) else None.
Definition base_env : TypeEnv := env_of [(Some "m", "Base", GStruct [gf "A" tstring], "")] no_decls.
Theorem C78_refuted_panic :
  exists world L file doc comments t rest n f env,
    world "m" = Some L /\ laid_out L /\ In file (ld_syntax L) /\ struct_field_of file (embedded_field doc comments t rest) /\ embeds t n /\ plain t /\
    seen world f (snd n) /\ described_in env (Some "m") (gf_type f) = Some "m" /\
    snd (TypeResult 9 env true (Some "m") "" (GStruct [f])) = Panic /\
    exists l r, TypeResult 9 env true (Some "m") "" (GStruct [gf "Base" (gf_type f)]) = (l, Ok r).
Proof.
  exists base_world, (loaded_of "a.go" [base_field]), (source_of [base_field]), "", [], (ident ("Base", 34)), [], ("Base", 34), (field_at base_world "Base" true (GNamed 0) 34), base_env.
  split; [reflexivity|]. split; [apply source_laid; [discriminate|distinct|ranges]|]. split; [now left|]. split; [apply source_field; now left|].
  split; [constructor|]. split; [constructor|]. split; [intros p; reflexivity|]. split; [reflexivity|]. split; [vm_compute; reflexivity|]. do 2 eexists. vm_compute. reflexivity.
Qed.
Print Assumptions C78_refuted_panic.

(** C78, refuted: a field of a type of another package is looked up there by a position of this one, and gets the comment of a field it has nothing to do with. *)
Definition mine : stx := named_field "mine" [] ("F", 34) [] [selection (ident ("b", 36)) ("U", 38)].
Definition yours : stx := named_field "yours" [] ("Y", 34) [] [ident ("string", 36)].
Definition other_world (p : string) : option loaded :=
  if String.eqb p "m" then Some (loaded_of "a.go" [mine]) else if String.eqb p "b" then Some (loaded_of "b.go" [yours]) else None.
Definition other_env : TypeEnv := env_of [(Some "b", "U", GStruct [gf "Y" tstring], "")] no_decls.
Theorem C78_refuted_other :
  exists world L L' file doc comments n rest f env l r x,
    world "m" = Some L /\ laid_out L /\ world "b" = Some L' /\ laid_out L' /\ In file (ld_syntax L) /\
    struct_field_of file (named_field doc comments n [] rest) /\ FormatDoc doc = "mine" /\ seen world f (snd n) /\
    TypeResult 9 env true (Some "m") "" (GStruct [f]) = (l, Ok r) /\ f_structFields (ParseResultToField r) = [(gf_name f, x)] /\ f_doc x = "yours".
Proof.
  exists other_world, (loaded_of "a.go" [mine]), (loaded_of "b.go" [yours]), (source_of [mine]), "mine", [], ("F", 34), [selection (ident ("b", 36)) ("U", 38)], (field_at other_world "F" false (GNamed 0) 34), other_env.
  do 3 eexists. split; [reflexivity|]. split; [apply source_laid; [discriminate|distinct|ranges]|]. split; [reflexivity|]. split; [apply source_laid; [discriminate|distinct|ranges]|].
  split; [now left|]. split; [apply source_field; now left|]. split; [reflexivity|]. split; [intros p; reflexivity|]. split; [vm_compute; reflexivity|]. split; [cbn; reflexivity|reflexivity].
Qed.
Print Assumptions C78_refuted_other.

(** C78, refuted: a struct without embedded types makes the run panic, because another package has an embedded type at the position of its field. *)
Definition theirs : stx := embedded_field "" [] (ident ("Base", 34)) [].
Definition clash_world (p : string) : option loaded :=
  if String.eqb p "m" then Some (loaded_of "a.go" [mine]) else if String.eqb p "b" then Some (loaded_of "b.go" [theirs]) else None.
Theorem C78_refuted_other_panic :
  exists world L L' file doc comments n rest f env,
    world "m" = Some L /\ laid_out L /\ world "b" = Some L' /\ laid_out L' /\ In file (ld_syntax L) /\
    struct_field_of file (named_field doc comments n [] rest) /\ seen world f (snd n) /\ gf_embedded f = false /\
    snd (TypeResult 9 env true (Some "m") "" (GStruct [f])) = Panic.
Proof.
  exists clash_world, (loaded_of "a.go" [mine]), (loaded_of "b.go" [theirs]), (source_of [mine]), "mine", [], ("F", 34), [selection (ident ("b", 36)) ("U", 38)], (field_at clash_world "F" false (GNamed 0) 34), other_env.
  split; [reflexivity|]. split; [apply source_laid; [discriminate|distinct|ranges]|]. split; [reflexivity|]. split; [apply source_laid; [discriminate|distinct|ranges]|].
  split; [now left|]. split; [apply source_field; now left|]. split; [intros p; reflexivity|]. split; [reflexivity|]. vm_compute. reflexivity.
Qed.
Print Assumptions C78_refuted_other_panic.

(** The hypotheses are met: the first of two names has the comment. *)
Example C78_nontrivial :
  exists l r x, TypeResult 9 error_env true (Some "m") "" (GStruct [field_at two_world "A" false tstring 34]) = (l, Ok r) /\
    two_world "m" = Some (loaded_of "a.go" [two_names]) /\ laid_out (loaded_of "a.go" [two_names]) /\
    struct_field_of (source_of [two_names]) two_names /\ described_in error_env (Some "m") tstring = Some "m" /\
    f_structFields (ParseResultToField r) = [("A", x)] /\ f_doc x = "why" /\
    ASTAtPos (loaded_of "a.go" [two_names]) 34 = Some two_names.
Proof.
  do 3 eexists. split; [vm_compute; reflexivity|]. split; [reflexivity|]. split; [exact two_laid|]. split; [apply source_field; now left|].
  split; [reflexivity|]. split; [cbn; reflexivity|]. split; reflexivity.
Qed.
