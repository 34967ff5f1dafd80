(** QCholSpec.v -- sums, products and positive definite matrices of real numbers. *)
From Coq Require Import Reals.
Open Scope R_scope.

(** the sum of f over 0 .. n-1 *)
Fixpoint total (f : nat -> R) (n : nat) : R := match n with O => 0 | S k => total f k + f k end.
(** row i times row j: the entries of M M^T *)
Definition gram (m : nat -> nat -> R) (n i j : nat) : R := total (fun k => m i k * m j k) n.
(** x^T A x and |x|^2 *)
Definition form (a : nat -> nat -> R) (n : nat) (x : nat -> R) : R := total (fun i => total (fun j => x i * a i j * x j) n) n.
Definition norm2 (n : nat) (x : nat -> R) : R := total (fun i => x i * x i) n.
Definition symmetric (n : nat) (a : nat -> nat -> R) : Prop := forall i j, (i < n)%nat -> (j < n)%nat -> a i j = a j i.
Definition positive_definite (n : nat) (a : nat -> nat -> R) : Prop := forall x, (exists i, (i < n)%nat /\ x i <> 0) -> 0 < form a n x.
(** no eigenvalue below c *)
Definition definite_by (c : R) (n : nat) (a : nat -> nat -> R) : Prop := forall x, c * norm2 n x <= form a n x.
