(** FloatModel.v -- Rust's f32 and f64 as IEEE-754 numbers of Flocq
    (one NaN: no code modelled here looks at a NaN's payload).

    Every [+ - * /] rounds to nearest, ties to even, as Rust specifies; a
    comparison with NaN is false; [as] from an integer type rounds to nearest
    even. *)
From Coq Require Import ZArith Reals Bool.
From Flocq Require Import Core.
From Flocq Require Import IEEE754.BinarySingleNaN.
Open Scope Z_scope.

(** trading-engine/src/types/base.rs 39-41: [Real], [NormalizedReal] = f64. *)
Notation f64 := (binary_float 53 1024).
(** quantlib/src/definitions.rs 6-7: [Real], [Time] = f32. *)
Notation f32 := (binary_float 24 128).

#[global] Instance p53 : Prec_gt_0 53. Proof. reflexivity. Qed.
#[global] Instance e1024 : Prec_lt_emax 53 1024. Proof. reflexivity. Qed.
#[global] Instance p24 : Prec_gt_0 24. Proof. reflexivity. Qed.
#[global] Instance e128 : Prec_lt_emax 24 128. Proof. reflexivity. Qed.

Section Format.
Context (prec emax : Z) {Hp : Prec_gt_0 prec} {Hpe : Prec_lt_emax prec emax}.
Notation fl := (binary_float prec emax).

Definition gadd (x y : fl) : fl := Bplus mode_NE x y.
Definition gsub (x y : fl) : fl := Bminus mode_NE x y.
Definition gmul (x y : fl) : fl := Bmult mode_NE x y.
Definition gdiv (x y : fl) : fl := Bdiv mode_NE x y.
Definition gneg (x : fl) : fl := Bopp x.
(** [n as f32], [n as f64], and integer-valued literals. *)
Definition gof_Z (n : Z) : fl := binary_normalize prec emax Hp Hpe mode_NE n 0 false.
(** [x < y], [x > y], [x == y] *)
Definition glt (x y : fl) : bool := Bltb x y.
Definition geq (x y : fl) : bool := Beqb x y.
Definition gle (x y : fl) : bool := Bleb x y.
Definition gzero : fl := B754_zero false.
End Format.

Arguments gadd {prec emax Hp Hpe} x y.
Arguments gsub {prec emax Hp Hpe} x y.
Arguments gmul {prec emax Hp Hpe} x y.
Arguments gdiv {prec emax Hp Hpe} x y.
Arguments gneg {prec emax} x.
Arguments gof_Z {prec emax Hp Hpe} n.
Arguments glt {prec emax} x y.
Arguments geq {prec emax} x y.
Arguments gle {prec emax} x y.
Arguments gzero {prec emax}.
