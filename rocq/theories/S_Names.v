(** Specifications for schema naming. *)
From Coq Require Import List String Ascii Bool ZArith Arith Permutation Sorted.
From Verif Require Import BaseStr BaseMap M_Types M_Tags S_Tags S_Collect M_OpenAPI.
Import ListNotations.
Local Open Scope string_scope.

(** Iteration orders only reorder; sort.Slice reorders into name order. *)
Definition name_sorted (l : list OParam) : Prop :=
  StronglySorted (fun a b => str_ltb (pa_name b) (pa_name a) = false) l.
Definition valid_orders (o : Orders) : Prop :=
  (forall g, Permutation g (o_groups o g)) /\
  (forall site (A : Type) (l : list A), Permutation l (o_fields o site A l)) /\
  (forall site m, Permutation m (o_tags o site m)) /\
  (forall site l, Permutation l (o_props o site l)) /\
  (forall site l, Permutation l (o_sort o site l) /\ name_sorted (o_sort o site l)).

(** One possible set of orders: maps in stored order, insertion sort. *)
Fixpoint insert_param (p : OParam) (l : list OParam) : list OParam :=
  match l with
  | [] => [p]
  | q :: r => if str_ltb (pa_name q) (pa_name p) then q :: insert_param p r else p :: l
  end.
Definition sort_params (l : list OParam) : list OParam := fold_right insert_param [] l.
Definition plain_orders : Orders :=
  mkOrders (fun g => g) (fun _ _ l => l) (fun _ m => m) (fun _ l => l) (fun _ l => sort_params l).

(** The elements of a package path, last first. *)
Definition elems (pkg : string) : list string := rev (split "/" pkg).
Definition last_elem (pkg : string) : string := hd "" (elems pkg).

(** [first_differ_at k p q]: counted from the end, the first k elements agree and the next one,
    which both paths have, differs. *)
Definition first_differ_at (k : nat) (p q : string) : Prop :=
  firstn k (elems p) = firstn k (elems q) /\
  exists x y, nth_error (elems p) k = Some x /\ nth_error (elems q) k = Some y /\ x <> y.

(** Every package has more elements than any two packages with the same last element share at
    their ends. *)
Definition deep_enough (components : list Field) : Prop :=
  forall c c1 c2 k, In c components -> In c1 components -> In c2 components ->
    last_elem (f_package c1) = last_elem (f_package c) ->
    last_elem (f_package c2) = last_elem (f_package c) ->
    first_differ_at k (f_package c1) (f_package c2) -> k < List.length (elems (f_package c)).

(** Struct fields carry parsed bindings. *)
Definition parsed_components (components : list Field) : Prop :=
  forall c, In c components -> parsed_fields (f_structFields c).

(** For each last element there is one position at which different packages with that last
    element first differ. *)
Definition separated (components : list Field) (level : string -> nat) : Prop :=
  forall c1 c2, In c1 components -> In c2 components ->
    last_elem (f_package c1) = last_elem (f_package c2) -> f_package c1 <> f_package c2 ->
    first_differ_at (level (last_elem (f_package c1))) (f_package c1) (f_package c2).

(** The names and the elements that go into schema names have no dot, and the elements are no
    binding tags. *)
Definition plain_names (components : list Field) (level : string -> nat) : Prop :=
  forall c, In c components ->
    has_char "." (f_name c) = false /\
    Forall (fun e => has_char "." e = false /\ e <> "" /\ ~ In e BindingTags)
           (firstn (S (level (last_elem (f_package c)))) (elems (f_package c))).

(** A tag a component is registered under: one of its fields has it, or no field has any. *)
Definition registered (c : Field) (t : string) : Prop :=
  has_tag (f_structFields c) t \/
  (~ (exists t', has_tag (f_structFields c) t') /\ In t BindingTags).

(** No package path is another one followed by a dot and a binding tag, and names have no dot. *)
Definition unambiguous (components : list Field) : Prop :=
  (forall c, In c components -> has_char "." (f_name c) = false) /\
  (forall c1 c2 t, In c1 components -> In c2 components -> In t BindingTags ->
     f_package c1 <> f_package c2 ++ "." ++ t).
