(** QCholModel.v -- quantlib/src/math/cholescky_factorization.rs and
    quantlib/src/pricing_engines/montecarlo/rand_generator.rs. *)
From Coq Require Import ZArith Bool List.
From Flocq Require Import Core IEEE754.BinarySingleNaN.
From Verif Require Import Base FloatModel KrxModel.
Import ListNotations.
Open Scope nat_scope.

(** ndarray's Array2: what stands at each row and column; rows and columns are given apart *)
Definition matrix : Type := nat -> nat -> f32.
(** cholescky_factorization.rs 16: Array2::zeros *)
Definition zeros : matrix := fun _ _ => gof_Z 0.
(** 32, 36: an assignment to l[[i, j]] *)
Definition put (l : matrix) (i j : nat) (v : f32) : matrix := fun p q => if (p =? i) && (q =? j) then v else l p q.
(** f32::sqrt: rounds to nearest *)
Definition gsqrt (x : f32) : f32 := Bsqrt mode_NE x.
(** 20-25: sum over k in 0..m of l[[i, k]] * l[[j, k]] *)
Fixpoint dot (l : matrix) (i j m : nat) : f32 :=
  match m with O => gof_Z 0 | S k => gadd (dot l i j k) (gmul (l i k) (l j k)) end.
(** 20-37: one cell *)
Definition cell (a l : matrix) (i j : nat) : rresult matrix :=
  let sum := dot l i j j in
  if i =? j then
    let diagonal := gsub (a i i) sum in
    if gle diagonal (gof_Z 0) then RErr else ROk (put l i i (gsqrt diagonal))
  else ROk (put l i j (gdiv (gsub (a i j) sum) (l j j))).
(** 19-38: for j in 0..=i *)
Fixpoint cells (a : matrix) (i : nat) (js : list nat) (l : matrix) : rresult matrix :=
  match js with [] => ROk l | j :: js => match cell a l i j with ROk l => cells a i js l | RErr => RErr end end.
(** 18-39: for i in 0..n *)
Fixpoint lines (a : matrix) (is : list nat) (l : matrix) : rresult matrix :=
  match is with [] => ROk l | i :: is => match cells a i (seq 0 (S i)) l with ROk l => lines a is l | RErr => RErr end end.
(** 5-42: cholesky_decomposition; the warning is left out *)
Definition cholesky_decomposition (nrows ncols : nat) (a : matrix) : rresult matrix :=
  if negb (nrows =? ncols) then RErr else lines a (seq 0 nrows) zeros.

(** rand_generator.rs 13-27: correlated_path. The draws are an argument; the order in which
    ndarray's dot sums is not fixed, so that the product is an argument too *)
Definition correlated_path (product : nat -> nat -> matrix -> matrix -> matrix) (draws : matrix) (steps nrows ncols : nat) (a : matrix) : outcome (nat * nat * matrix) :=
  match cholesky_decomposition nrows ncols a with
  | RErr => Panic
  | ROk l => Ret (nrows, steps, product nrows steps l draws)
  end.
