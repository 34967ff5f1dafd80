(** QFindSpec.v -- vocabulary for the statements about searching: orders,
    sorted arrays, the place of a value. *)
From Coq Require Import ZArith Arith List Bool Lia.
From Verif Require Import Base QFindModel.
Import ListNotations.
Open Scope nat_scope.

Section Spec.
Context {T : Type} (cmp : T -> T -> option comparison).
Definition lt (x y : T) : Prop := cmp x y = Some Lt.
Definition le (x y : T) : Prop := cmp x y = Some Lt \/ cmp x y = Some Eq.
(** on the values in [P] the comparison is a total order (up to equality);
    for floats [P] is "not NaN" *)
Definition total_order (P : T -> Prop) : Prop :=
  (forall x y, P x -> P y -> exists c, cmp x y = Some c /\ cmp y x = Some (CompOpp c)) /\
  (forall x y z, P x -> P y -> P z -> le x y -> le y z -> le x z).
Definition sorted (v : list T) : Prop := forall i j x y, i < j -> nth_error v i = Some x -> nth_error v j = Some y -> le x y.
Definition strictly_sorted (v : list T) : Prop := forall i j x y, i < j -> nth_error v i = Some x -> nth_error v j = Some y -> lt x y.
(** [i] is the place of [value]: the documented result.  The first index if the
    value lies before the first element, the last index if it does not lie
    before the last element, and otherwise the index with
    v[i] <= value < v[i+1]. *)
Definition place (v : list T) (value : T) (i : nat) : Prop :=
  i < length v /\
  (forall x, nth_error v 0 = Some x -> lt value x -> i = 0) /\
  (forall x, nth_error v (length v - 1) = Some x -> le x value -> i = length v - 1) /\
  (forall a b, nth_error v 0 = Some a -> nth_error v (length v - 1) = Some b -> le a value -> lt value b ->
     exists x y, nth_error v i = Some x /\ nth_error v (i + 1) = Some y /\ le x value /\ lt value y).
End Spec.
