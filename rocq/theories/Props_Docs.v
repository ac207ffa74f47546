(** Property theorems about the comments of types: C69. *)
From Coq Require Import List String Ascii Bool Arith Lia Relations.
From Verif Require Import BaseStr BaseMap M_Types M_Tags M_Collect M_TypeTrav S_TypeTrav P_TypeTrav P_Fields M_Parse S_Parse M_OpenAPI S_Whole M_Docs S_Docs P_Docs Props_TypeTrav.
Import ListNotations.
Local Open Scope string_scope.

(** The comment found for a type declared in a package is its own. *)
Theorem C69_comment_found : forall files d s,
  declared_once files -> declares files d s ->
  FindDocForType files (ts_name s) = option_map Text (comment_above d s).
Proof. intros files d s. apply found_doc. Qed.
Print Assumptions C69_comment_found.
Theorem C69_no_comment : forall files name,
  (forall d s, declares files d s -> ts_name s <> name) -> FindDocForType files name = None.
Proof. intros files name. apply no_doc. Qed.
Print Assumptions C69_no_comment.

(** What is shown of a comment is its text. *)
Theorem C69_text_partial : forall g t,
  comment_text g t -> has_prefix "//" t = false -> no_outer_space t -> FormatDoc (Text g) = t.
Proof. intros g t. apply doc_text. Qed.
Print Assumptions C69_text_partial.

(** Every group of comments has a text, exactly one. *)
Theorem C69_text_exists : forall g, Forall comment g -> exists! t, comment_text g t.
Proof.
  intros g H. destruct (text_total g H) as (t & T). exists t. split; auto. intros t' T'. exact (text_unique g t t' T T').
Qed.
Print Assumptions C69_text_exists.

(** Full statement: the component of a type has the text of the type's own comment as its description.
    Proved for types declared in packages (not in functions), of different names within a package, the definitions
    of which stay in their package (C28), for texts that do not begin with // or a space nor end with a space. *)
Theorem C69_description_partial : forall files env n pkg t l r id p d s c,
  TypeResult n (with_docs files env) true pkg "" t = (l, Ok r) ->
  (forall i q, reach env true t (GNamed i) -> te_pkg env i = Some q -> q <> "" /\ te_name env i <> "" /\ at_home env i) ->
  (forall i j, reach env true t (GNamed i) -> reach env true t (GNamed j) ->
     te_pkg env i = te_pkg env j -> te_name env i = te_name env j -> i = j) ->
  reach env true t (GNamed id) -> te_pkg env id = Some p ->
  declared_once (files p) -> declares (files p) d s -> ts_name s = te_name env id ->
  In c (register [] l) -> f_package c = p -> f_name c = te_name env id ->
  match comment_above d s with
  | None => f_doc c = ""
  | Some g => forall text, comment_text g text -> has_prefix "//" text = false -> no_outer_space text -> f_doc c = text
  end.
Proof.
  intros files env n pkg t l r id p d s c E Hall Hinj Hr Hp U D Hs Hc Pc Nc.
  assert (P : forall t t', part (with_docs files env) true t t' <-> part env true t t').
  { intros a b. split; intros H; destruct H; try (now constructor).
    - apply (part_named env true id0 p0); assumption.
    - apply (part_named (with_docs files env) true id0 p0); assumption. }
  assert (R : forall t t', reach (with_docs files env) true t t' <-> reach env true t t').
  { intros a b. unfold reach. split; induction 1; try constructor; econstructor; try apply P; eauto. }
  assert (A : forall i, at_home env i -> at_home (with_docs files env) i).
  { intros i [H1 H2]. split; [exact H1|]. cbn. rewrite <- H2 at 2. generalize (te_pkg env i), (te_under env i).
    clear. intros o g. revert o. induction g; intros o; cbn; auto. }
  destruct (components_own n (with_docs files env) pkg t l r id p E) as (x & Hd & Hx); auto.
  - intros i q Hi Hq. apply R in Hi. destruct (Hall i q Hi Hq) as (H1 & H2 & H3). auto.
  - intros i j Hi Hj. apply R in Hi. apply R in Hj. cbn. auto.
  - now apply R.
  - rewrite (Hx c Hc Pc Nc), (definition_doc _ _ _ Hd). cbn [with_docs te_doc]. rewrite Hp, <- Hs, (found_doc _ _ _ U D).
    unfold doc_of. destruct (comment_above d s) as [g|]; [|reflexivity]. cbn. intros text. apply doc_text.
Qed.
Print Assumptions C69_description_partial.

(** The description of an operation that tells what a handler does (C64) is the text of the comment above it. *)
Theorem C69_operation_partial : forall op path id g es t,
  tells op path id (Text g) es -> comment_text g t -> has_prefix "//" t = false -> no_outer_space t -> op_description op = t.
Proof.
  intros op path id g es t T Ht Hp Hs. destruct T as (_ & -> & _). rewrite <- (doc_text g t Ht Hp Hs). apply TrimSpace_idem.
Qed.
Print Assumptions C69_operation_partial.

(** ** An example

    // Things of the shop.
    type (
      // An Item is sold.
      //
      // See Order.
      //go:generate tool
      Item struct { ID string }
      Order struct { Items []Item }
    )

    /* Without
       more. */
    type Plain struct { Order Order }  *)
Definition lf : string := str1 LF.
Definition item_comment : list string := ["// An Item is sold."; "//"; "// See Order."; "//go:generate tool"].
Definition group_comment : list string := ["// Things of the shop.  "].
Definition block_comment : list string := ["/* Without" ++ lf ++ "   more. */"].
Definition item_spec := mkTS "Item" (Some item_comment).
Definition order_spec := mkTS "Order" None.
Definition plain_spec := mkTS "Plain" None.
Definition shop_group := mkGD (Some group_comment) [item_spec; order_spec].
Definition plain_decl := mkGD (Some block_comment) [plain_spec].
Definition shop_files (p : string) : list (list gdecl) := if String.eqb p "app" then [[shop_group]; [plain_decl]] else [].
Definition doc_env : TypeEnv := env_of
  [(Some "app", "Item", GStruct [gf "ID" tstring], ""); (Some "app", "Order", GStruct [gf "Items" (GSlice (GNamed 0))], "");
   (Some "app", "Plain", GStruct [gf "Order" (GNamed 1)], "")] no_decls.

Lemma item_text : comment_text item_comment ("An Item is sold." ++ lf ++ lf ++ "See Order.").
Proof.
  exists ["An Item is sold."; ""; "See Order."], ["An Item is sold."; ""; "See Order."], [["An Item is sold."]; ["See Order."]].
  assert (K : forall l, (forall s c, l = s ++ str1 c -> ~ whitespace c) -> stripped l l).
  { intros l H. split; [exists ""; split; [now rewrite append_nil_r|exact I]|exact H]. }
  assert (D : forall l, match String.get (String.length l - 1) l with Some c => isWhitespace c = false | None => l = "" end -> stripped l l).
  { intros l H. apply K. intros s c -> W. rewrite length_append in H. cbn [String.length str1] in H. rewrite Nat.add_sub in H.
    assert (G : String.get (String.length s) (s ++ str1 c) = Some c) by (clear; induction s; [reflexivity|exact IHs]).
    rewrite G in H. apply whitespace_iff in W. congruence. }
  split.
  - apply (wr_line "An Item is sold."); [reflexivity|]. apply wr_empty. apply (wr_line "See Order."); [reflexivity|].
    apply (wr_directive "go:generate tool"); [|constructor]. left. exists "go", "g"%char, "enerate tool". split; [reflexivity|].
    split; [discriminate|]. cbn. unfold lower_or_digit. cbn. lia.
  - split; [repeat constructor; try (apply D; reflexivity)|]. split; [|reflexivity].
    apply (pg_cons [] ["An Item is sold."] ["" ; "See Order."] [["See Order."]]);
      [constructor|discriminate|repeat constructor; discriminate|eauto|].
    apply (pg_cons [""] ["See Order."] [] []); [repeat constructor|discriminate|repeat constructor; discriminate|now left|repeat constructor].
Qed.

Lemma shop_once : declared_once (shop_files "app").
Proof.
  intros d s d' s' (f & Hf & Hd & Hs) (f' & Hf' & Hd' & Hs') E.
  destruct Hf as [<-|[<-|[]]], Hf' as [<-|[<-|[]]], Hd as [<-|[]], Hd' as [<-|[]]; cbn in Hs, Hs';
    repeat match goal with H : _ \/ _ |- _ => destruct H | H : False |- _ => destruct H end; subst; auto; discriminate.
Qed.
Lemma shop_reach i : reach doc_env true (GNamed 2) (GNamed i) -> i < 3.
Proof.
  assert (G : forall t t', reach doc_env true t t' -> In t [GNamed 2; GNamed 1; GNamed 0; GSlice (GNamed 0); tstring;
     te_under doc_env 0; te_under doc_env 1; te_under doc_env 2] -> forall i, t' = GNamed i -> i < 3).
  { induction 1 as [t|t t1 t2 P _ IH]; intros Hin j E.
    - subst. cbn in Hin. repeat (destruct Hin as [Hin|Hin]; [try discriminate; injection Hin as <-; lia|]). destruct Hin.
    - apply IH; auto. clear IH E. cbn [In] in Hin.
      destruct Hin as [<-|[<-|[<-|[<-|[<-|[<-|[<-|[<-|[]]]]]]]]]; inversion P; subst; cbn; try tauto;
        match goal with H : In _ _ |- _ => destruct H as [<-|[]] end; cbn; tauto. }
  intros H. eapply G; [exact H|now left|reflexivity].
Qed.
Example C69_nontrivial :
  (exists l r, TypeResult 9 (with_docs shop_files doc_env) true (Some "app") "" (GNamed 2) = (l, Ok r) /\
     map (fun c => (f_name c, f_doc c)) (register [] l) =
       [("Item", "An Item is sold." ++ lf ++ lf ++ "See Order."); ("Order", "Things of the shop."); ("Plain", "Without" ++ lf ++ "   more.")]) /\
  (forall i q, reach doc_env true (GNamed 2) (GNamed i) -> te_pkg doc_env i = Some q -> q <> "" /\ te_name doc_env i <> "" /\ at_home doc_env i) /\
  (forall i j, reach doc_env true (GNamed 2) (GNamed i) -> reach doc_env true (GNamed 2) (GNamed j) ->
     te_pkg doc_env i = te_pkg doc_env j -> te_name doc_env i = te_name doc_env j -> i = j) /\
  reach doc_env true (GNamed 2) (GNamed 0) /\ declared_once (shop_files "app") /\ declares (shop_files "app") shop_group item_spec /\
  comment_above shop_group item_spec = Some item_comment /\ comment_above shop_group order_spec = Some group_comment /\
  comment_text item_comment ("An Item is sold." ++ lf ++ lf ++ "See Order.") /\
  no_outer_space ("An Item is sold." ++ lf ++ lf ++ "See Order.").
Proof.
  split; [do 2 eexists; split; vm_compute; reflexivity|]. split.
  { intros i q H Hq. apply shop_reach in H. destruct i as [|[|[|i]]]; [| | |lia]; injection Hq as <-;
      (split; [discriminate|split; [discriminate|split; [discriminate|reflexivity]]]). }
  split.
  { intros i j Hi Hj _ E. apply shop_reach in Hi. apply shop_reach in Hj.
    destruct i as [|[|[|i]]], j as [|[|[|j]]]; try lia; discriminate. }
  split.
  { eapply Relation_Operators.rt1n_trans; [eapply part_named; reflexivity|].
    eapply Relation_Operators.rt1n_trans; [apply (part_field _ _ _ (gf "Order" (GNamed 1))); [now left|reflexivity]|].
    eapply Relation_Operators.rt1n_trans; [eapply part_named; reflexivity|].
    eapply Relation_Operators.rt1n_trans; [apply (part_field _ _ _ (gf "Items" (GSlice (GNamed 0)))); [now left|reflexivity]|].
    eapply Relation_Operators.rt1n_trans; [apply part_slice|]. constructor. }
  split; [exact shop_once|]. split; [exists [shop_group]; split; [now left|split; [now left|now left]]|].
  split; [reflexivity|]. split; [reflexivity|]. split; [exact item_text|].
  intros x m Hx. split; intros E.
  - assert (P : has_prefix x ("An Item is sold." ++ lf ++ lf ++ "See Order.") = true) by (apply has_prefix_spec; eauto).
    assert (F : forallb (fun x => negb (has_prefix x ("An Item is sold." ++ lf ++ lf ++ "See Order."))) space_runes = true) by (vm_compute; reflexivity).
    eapply forallb_forall in F; [|exact Hx]. rewrite P in F. discriminate.
  - assert (P : has_suffix x ("An Item is sold." ++ lf ++ lf ++ "See Order.") = true) by (apply has_suffix_spec; eauto).
    assert (F : forallb (fun x => negb (has_suffix x ("An Item is sold." ++ lf ++ lf ++ "See Order."))) space_runes = true) by (vm_compute; reflexivity).
    eapply forallb_forall in F; [|exact Hx]. rewrite P in F. discriminate.
Qed.

(** A type declared in a function, without a comment, is described by the comment of the type of the package
    that has its name: [origin] tells where a type is declared. *)
Theorem C69_local_refuted : exists files env (origin : nat -> gdecl * tspec) id p l r c,
  (forall q, declared_once (files q)) /\ te_pkg env id = Some p /\ ts_name (snd (origin id)) = te_name env id /\ at_home env id /\
  ~ declares (files p) (fst (origin id)) (snd (origin id)) /\ comment_above (fst (origin id)) (snd (origin id)) = None /\
  TypeResult 9 (with_docs files env) true (Some p) "" (GNamed id) = (l, Ok r) /\ register [] l = [c] /\
  f_name c = te_name env id /\ f_package c = p /\ f_doc c <> "".
Proof.
  exists shop_files, doc_env, (fun _ => (mkGD None [mkTS "Item" None], mkTS "Item" None)), 0, "app". do 3 eexists.
  split.
  { intros q. unfold shop_files. destruct (String.eqb q "app") eqn:E; [exact shop_once|]. intros d s d' s' (f & [] & _). }
  split; [reflexivity|]. split; [reflexivity|]. split; [split; [discriminate|reflexivity]|]. split.
  { intros (f & Hf & Hd & _). destruct Hf as [<-|[<-|[]]], Hd as [E|[]]; discriminate. }
  split; [reflexivity|]. split; [vm_compute; reflexivity|]. split; [vm_compute; reflexivity|]. repeat split. vm_compute. discriminate.
Qed.
Print Assumptions C69_local_refuted.
