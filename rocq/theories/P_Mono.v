(** More fuel changes nothing about an analysis that ends. *)
From Coq Require Import List String Ascii Bool ZArith Arith Lia.
From Verif Require Import BaseStr M_Types M_Paths M_Tags M_Collect M_TypeTrav M_Parse.
Import ListNotations.
Local Open Scope string_scope.

Definition upto {A} (o o' : outcome A) : Prop := o = OutOfFuel \/ o = o'.
Lemma upto_refl {A} (o : outcome A) : upto o o.
Proof. now right. Qed.
Lemma upto_bind {A B} (m m' : outcome A) (f f' : A -> outcome B) :
  upto m m' -> (forall a, upto (f a) (f' a)) -> upto (bind m f) (bind m' f').
Proof. intros [->| ->] F; [now left|]. destruct m'; cbn; auto using upto_refl. Qed.

Lemma visit_upto again again' cs ctx here c s l :
  (forall g cur f s, upto (again g cur f s) (again' g cur f s)) ->
  upto (visit again cs ctx here c s l) (visit again' cs ctx here c s l).
Proof.
  intros H. unfold visit.
  repeat match goal with
         | |- upto ?a ?a => apply upto_refl
         | |- upto (bind _ _) (bind _ _) => apply upto_bind; [auto|intros ?]
         | |- upto (match ?x with _ => _ end) _ => destruct x
         end.
Qed.

Lemma inspect_upto v v' : (forall c s l, upto (v c s l) (v' c s l)) ->
  forall n s l, upto (inspect v n s l) (inspect v' n s l).
Proof.
  intros H. fix IH 1. intros [c ch] s l. cbn [inspect]. apply upto_bind.
  - destruct c; auto using upto_refl.
  - intros ((s1 & l1) & b). cbn [fst snd]. destruct b; [|apply upto_refl].
    revert s1 l1. induction ch as [|n ns IHn]; intros s1 l1; [apply upto_refl|].
    apply upto_bind; [apply IH|]. intros (s2 & l2). apply IHn.
Qed.

Lemma parseFunction_upto funcs cs : forall n m, n <= m -> forall g cur f level s,
  upto (parseFunction n funcs cs g cur f level s) (parseFunction m funcs cs g cur f level s).
Proof.
  induction n as [|n IH]; intros m L g cur f level s; [now left|]. destruct m as [|m]; [lia|].
  cbn [parseFunction]. apply upto_bind; [apply upto_refl|]. intros s1. apply upto_bind; [apply upto_refl|]. intros ctx.
  destruct (String.eqb ctx ""); [apply upto_refl|]. apply upto_bind; [|intros ?; apply upto_refl].
  apply inspect_upto. intros c s2 l. apply visit_upto. intros g' cur' f' s'. apply IH. lia.
Qed.

Section Route.
  Context (prog : program) (n m : nat) (L : n <= m).
  Lemma parse0_upto g s : upto (parse0 n prog g s) (parse0 m prog g s).
  Proof. unfold parse0. apply upto_bind; [now apply parseFunction_upto|]. intros ?. apply upto_refl. Qed.
  Lemma inline_upto line : forall l s, upto (inline n prog line l s) (inline m prog line l s).
  Proof.
    fix IH 1. intros [at_ g inner] s. cbn [inline]. destruct (Z.eqb _ _); [apply parse0_upto|].
    revert s. induction inner as [|l ls IHl]; intros s; [apply upto_refl|]. apply upto_bind; [apply IH|]. intros s1. apply IHl.
  Qed.
  Lemma inlines_upto line ls : forall s, upto (inlines n prog line ls s) (inlines m prog line ls s).
  Proof. induction ls as [|l ls IH]; intros s; cbn [inlines]; [apply upto_refl|]. apply upto_bind; [apply inline_upto|auto]. Qed.
  Lemma decls_upto name line ds : forall s, upto (decls n prog name line ds s) (decls m prog name line ds s).
  Proof.
    induction ds as [|d ds IH]; intros s; cbn [decls]; [apply upto_refl|]. apply upto_bind; [|auto].
    destruct (String.eqb _ _); [|apply upto_refl]. destruct (Z.eqb _ _); [|apply inlines_upto].
    destruct (nth_error _ _); [apply parse0_upto|apply upto_refl].
  Qed.
  Lemma parseRoute_upto r comps : upto (parseRoute n prog r comps) (parseRoute m prog r comps).
  Proof.
    unfold parseRoute. destruct (hp_handlerParts _); [apply upto_refl|]. destruct (pr_package _ _); [|apply upto_refl].
    destruct (find_file _ _) as [(f & ds)|]; [|apply upto_refl]. apply upto_bind; [apply decls_upto|]. intros ?. apply upto_refl.
  Qed.
  Lemma parse_from_upto k : forall i routes comps, upto (parse_from n prog k i routes comps) (parse_from m prog k i routes comps).
  Proof.
    induction k as [|k IH]; intros i routes comps; cbn [parse_from]; [apply upto_refl|].
    destruct (nth_error _ _) as [r|]; [|apply upto_refl].
    destruct (parseRoute_upto r comps) as [E|E]; rewrite E; [now left|]. destruct (parseRoute m prog r comps); auto using upto_refl.
  Qed.
End Route.
