(** QInterpSpec.v -- vocabulary for the statements about interpolators. *)
From Coq Require Import ZArith Arith List Bool Reals.
From Flocq Require Import Core IEEE754.BinarySingleNaN.
From Verif Require Import Base FloatModel QFindModel QFindSpec QInterpModel.
Import ListNotations.
Open Scope nat_scope.

(** what evaluating the points one by one, stopping at the first error, gives *)
Definition pointwise {A B} (f : A -> outcome (rresult B)) (xs : list A) (r : rresult (list B)) : Prop :=
  match r with
  | ROk ys => Forall2 (fun x y => f x = Ret (ROk y)) xs ys
  | RErr => Exists (fun x => f x = Ret RErr) xs
  end.
(** [x] lies in the interval of knots number [i]: v[i] <= x < v[i+1]; for the
    last knot: v[i] <= x *)
Definition interval {T} (cmp : T -> T -> option comparison) (v : list T) (x : T) (i : nat) : Prop :=
  exists a, nth_error v i = Some a /\ le cmp a x /\ forall b, nth_error v (i + 1) = Some b -> lt cmp x b.
(** f32 numbers that are not NaN *)
Definition number (x : f32) : Prop := is_nan x = false.
Definition finite (x : f32) : Prop := is_finite x = true.
