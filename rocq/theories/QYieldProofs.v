(** QYieldProofs.v -- rounding errors of powers and of sums of positive terms. *)
From Coq Require Import ZArith List Reals Lra Lia Bool.
From Flocq Require Import Core IEEE754.BinarySingleNaN.
From Verif Require Import Base FloatModel FloatFacts QInterpModel QInterpSpec QCurveSpec QFloatErr QLinProps QRollProofs QCurveFacts QCurveFwdProps QBondModel QBondSpec QBondProofs.
Import ListNotations.
Open Scope R_scope.

(** ** Bands *)
Lemma band_abs : forall n t, band n t -> Rabs t <= (1 + e24) ^ n.
Proof. intros n t B. unfold band in B. replace t with ((t - 1) + 1) by ring. apply Rle_trans with (1 := Rabs_triang _ _). rewrite Rabs_R1. lra. Qed.
Lemma band_prod : forall n m s t, band n s -> band m t -> band (n + m) (s * t).
Proof.
  intros n m s t A B. pose proof (band_abs m t B) as T. unfold band in *. rewrite pow_add. set (p := (1 + e24) ^ n) in *. set (q := (1 + e24) ^ m) in *.
  replace (s * t - 1) with ((s - 1) * t + (t - 1)) by ring. apply Rle_trans with (1 := Rabs_triang _ _). rewrite Rabs_mult.
  assert (Rabs (s - 1) * Rabs t <= (p - 1) * q) by (apply Rmult_le_compat; auto using Rabs_pos). lra.
Qed.
Lemma band_one : forall n, band n 1.
Proof. intro n. unfold band. replace (1 - 1) with 0 by ring. rewrite Rabs_R0. pose proof (pow_ge_1 n). lra. Qed.
Lemma band_le : forall n m t, (n <= m)%nat -> band n t -> band m t.
Proof. intros n m t L B. replace m with (n + (m - n))%nat by lia. replace t with (t * 1) by ring. apply band_prod; [exact B|apply band_one]. Qed.
Lemma band_lin : forall k q, Rabs q <= INR k * e24 -> band k (1 + q).
Proof.
  intros k q H. unfold band. replace (1 + q - 1) with q by ring. destruct k as [|k]; [cbn in *; lra|]. pose proof (poly (S k) e24 e24_pos). lra.
Qed.
Lemma band_inv : forall n t, (Z.of_nat n <= 4194304)%Z -> band n t -> band (2 * n) (/ t).
Proof.
  intros n t N B. pose proof (band_range n t N B) as R. pose proof (band_linear n t N B) as L. replace (/ t) with (1 + (1 - t) / t) by (field; lra).
  apply band_lin. unfold Rdiv. rewrite Rabs_mult, Rabs_minus_sym. rewrite (Rabs_pos_eq (/ t)) by (left; apply Rinv_0_lt_compat; lra).
  assert (I : / t <= 3 / 2) by (replace (3 / 2) with (/ (2 / 3)) by field; apply Rinv_le; lra). assert (I0 : 0 <= / t) by (left; apply Rinv_0_lt_compat; lra).
  apply Rle_trans with (4 / 3 * (INR n * e24) * (3 / 2)); [apply Rmult_le_compat; auto using Rabs_pos|]. rewrite mult_INR. change (INR 2) with 2. lra.
Qed.
Lemma band_pow : forall n t k, band n t -> band (n * k) (t ^ k).
Proof. intros n t k B. induction k as [|k IH]; [apply band_one|]. cbn [pow]. replace (n * S k)%nat with (n + n * k)%nat by lia. apply band_prod; assumption. Qed.
Lemma band_mix : forall n S T s t, 0 <= S -> 0 <= T -> band n s -> band n t -> exists u, S * s + T * t = (S + T) * u /\ band n u.
Proof.
  intros n S T s t PS PT A B. destruct (Req_dec (S + T) 0) as [Z|NZ].
  - exists 1. assert (S = 0) by lra. assert (T = 0) by lra. subst. split; [ring|apply band_one].
  - exists ((S * s + T * t) / (S + T)). split; [field; exact NZ|]. unfold band in *. set (p := (1 + e24) ^ n - 1) in *.
    replace ((S * s + T * t) / (S + T) - 1) with ((S * (s - 1) + T * (t - 1)) * / (S + T)) by (field; exact NZ). rewrite Rabs_mult. assert (P : 0 < S + T) by lra.
    rewrite (Rabs_pos_eq (/ (S + T))) by (left; apply Rinv_0_lt_compat; exact P). apply Rmult_le_reg_r with (S + T); [exact P|]. rewrite Rmult_assoc, Rinv_l, Rmult_1_r by lra.
    apply Rle_trans with (1 := Rabs_triang _ _). rewrite !Rabs_mult, (Rabs_pos_eq S), (Rabs_pos_eq T) by lra.
    assert (S * Rabs (s - 1) <= S * p) by (apply Rmult_le_compat_l; assumption). assert (T * Rabs (t - 1) <= T * p) by (apply Rmult_le_compat_l; assumption). lra.
Qed.
(** ** Operations on quantities that are zero or in reach *)
Definition reach (E : R) : Prop := E = 0 \/ lo <= E <= hi.
Lemma reach_rnd : forall E t n, reach E -> (Z.of_nat n <= 4194304)%Z -> band n t -> Rabs (E * t) <= huge 128 /\ exists d, Rabs d <= e24 /\ rnd 24 128 (E * t) = E * (t * (1 + d)).
Proof.
  intros E t n [-> | R] N B.
  - rewrite Rmult_0_l, Rabs_R0. split; [apply bpow_ge_0|]. exists 0. rewrite Rabs_R0. split; [unfold e24; lra|]. rewrite rnd_0. ring.
  - destruct (in_reach E t R (band_range n t N B)) as [S1 S2]. split; [exact S2|]. destruct (rnd_rel _ S1) as (d & D & Q). exists d. split; [exact D|]. rewrite Q. ring.
Qed.
Lemma op_band : forall (z : f32) x E t n, (Rabs x <= huge 128 -> fn z (rnd 24 128 x)) -> x = E * t -> reach E -> (Z.of_nat n <= 4194304)%Z -> band n t -> exists u, fn z (E * u) /\ band (S n) u.
Proof.
  intros z x E t n F X R N B. subst x. destruct (reach_rnd E t n R N B) as [H (d & D & Q)]. exists (t * (1 + d)). split; [|apply band_step; assumption]. rewrite <- Q. apply F. exact H.
Qed.
Lemma mul_band : forall x y E F s t n m, fn x (E * s) -> fn y (F * t) -> band n s -> band m t -> reach (E * F) -> (Z.of_nat (n + m) <= 4194304)%Z -> exists u, fn (gmul x y) (E * F * u) /\ band (S (n + m)) u.
Proof.
  intros x y E F s t n m Fx Fy A B R N. apply (op_band _ (E * s * (F * t)) _ (s * t)); auto using band_prod; [|ring]. intro H. apply fin_mul; assumption.
Qed.
Lemma div_band : forall x y E F s t n m, fn x (E * s) -> fn y (F * t) -> band n s -> band m t -> 0 < F -> reach (E / F) -> (Z.of_nat (n + 2 * m) <= 4194304)%Z -> exists u, fn (gdiv x y) (E / F * u) /\ band (S (n + 2 * m)) u.
Proof.
  intros x y E F s t n m Fx Fy A B PF R N. pose proof (band_range m t ltac:(lia) B) as T. assert (TP : F * t <> 0) by (apply Rmult_integral_contrapositive_currified; lra).
  apply (op_band _ (E * s / (F * t)) _ (s * / t)); auto; [|field; lra|apply band_prod; [exact A|apply band_inv; [lia|exact B]]]. intro H. apply fin_div; assumption.
Qed.
Lemma add_band : forall x y E F s t n, fn x (E * s) -> fn y (F * t) -> 0 <= E -> 0 <= F -> band n s -> band n t -> reach (E + F) -> (Z.of_nat n <= 4194304)%Z -> exists u, fn (gadd x y) ((E + F) * u) /\ band (S n) u.
Proof.
  intros x y E F s t n Fx Fy PE PF A B R N. destruct (band_mix n E F s t PE PF A B) as (u & U & BU). apply (op_band _ (E * s + F * t) _ u); auto. intro H. apply fin_add; assumption.
Qed.
Lemma band_value : forall (x : f32) E u n, fn x (E * u) -> band n u -> (Z.of_nat n <= 4194304)%Z -> finite x /\ Rabs (value x - E) <= Rabs E * (4 / 3 * INR n / 2 ^ 24).
Proof.
  intros x E u n [F V] B N. split; [exact F|]. unfold value. rewrite V. replace (E * u - E) with (E * (u - 1)) by ring. rewrite Rabs_mult. apply Rmult_le_compat_l; [apply Rabs_pos|].
  pose proof (band_linear n u N B) as L. assert (P24 : 2 ^ 24 = 16777216) by (rewrite pow_IZR; reflexivity). rewrite P24. unfold e24 in L. lra.
Qed.

(** ** One plus a rate *)
Lemma one_plus : forall x v y, fn x v -> Rabs y <= / 2 -> Rabs (v - y) <= Rabs y * (1.5 * e24) + tiny -> exists t, fn (gadd (gof_Z 1) x) ((1 + y) * t) /\ band 3 t.
Proof.
  intros x v y Fv Y V. pose proof tiny_1 as T1. assert (TS : tiny <= e24 * / 100) by (pose proof QBondProofs.tiny_small; unfold e24 in *; lra).
  assert (V1 : Rabs (v - y) <= / 2 * (1.5 * e24) + e24 * / 100).
  { apply Rle_trans with (1 := V). apply Rplus_le_compat; [|exact TS]. apply Rmult_le_compat_r; [unfold e24; lra|exact Y]. }
  assert (Y' := Rabs_le_inv _ _ Y). assert (V' := Rabs_le_inv _ _ V1).
  destruct (add_err (gof_Z 1) x 1 v one_fn Fv) as (w & d & Fw & D & W). { apply two100_127. unfold two100. apply Rabs_le. unfold e24 in V'. lra. }
  exists ((1 + (v - y) / (1 + y)) * (1 + d)). split; [|apply (band_prod 2 1)].
  - replace ((1 + y) * ((1 + (v - y) / (1 + y)) * (1 + d))) with w by (rewrite W; field; lra). exact Fw.
  - apply band_lin. unfold Rdiv. rewrite Rabs_mult. assert (I : 0 < / (1 + y) <= 2). { split; [apply Rinv_0_lt_compat; lra|]. replace 2 with (/ / 2) by field. apply Rinv_le; lra. }
    rewrite (Rabs_pos_eq (/ (1 + y))) by lra. apply Rle_trans with ((/ 2 * (1.5 * e24) + e24 * / 100) * 2); [apply Rmult_le_compat; try lra; apply Rabs_pos|]. change (INR 2) with 2. unfold e24. lra.
  - apply band_lin. change (INR 1) with 1. lra.
Qed.
Lemma pow_between : forall b i n, 0 < b -> (i <= n)%nat -> forall m M, m <= 1 -> 1 <= M -> m <= b ^ n <= M -> m <= b ^ i <= M.
Proof.
  intros b i n Pb L m M Hm HM [A B]. assert (P : forall k, 0 < b ^ k) by (intro k; apply pow_lt; exact Pb). replace n with (i + (n - i))%nat in A, B by lia. rewrite pow_add in A, B.
  destruct (Rle_lt_dec 1 b) as [G|G].
  - assert (Q : forall k, 1 <= b ^ k) by (intro k; apply pow_R1_Rle; exact G). split; [pose proof (Q i); lra|]. apply Rle_trans with (2 := B). rewrite <- (Rmult_1_r (b ^ i)) at 1. apply Rmult_le_compat_l; [left; apply P|apply Q].
  - assert (Q : forall k, b ^ k <= 1) by (intro k; rewrite <- (pow1 k); apply pow_incr; lra). split; [|pose proof (Q i); lra]. apply Rle_trans with (1 := A). rewrite <- (Rmult_1_r (b ^ i)) at 2. apply Rmult_le_compat_l; [left; apply P|apply Q].
Qed.
Lemma one_plus_wide : forall x v y, fn x v -> Rabs y <= / 2 -> Rabs (v - y) <= / 2 * (4 * e24) + e24 * / 10 -> exists t, fn (gadd (gof_Z 1) x) ((1 + y) * t) /\ band 6 t.
Proof.
  intros x v y Fv Y V1. assert (Y' := Rabs_le_inv _ _ Y). assert (V' := Rabs_le_inv _ _ V1).
  destruct (add_err (gof_Z 1) x 1 v one_fn Fv) as (w & d & Fw & D & W). { apply two100_127. unfold two100. apply Rabs_le. unfold e24 in V'. lra. }
  exists ((1 + (v - y) / (1 + y)) * (1 + d)). split; [|apply (band_prod 5 1)].
  - replace ((1 + y) * ((1 + (v - y) / (1 + y)) * (1 + d))) with w by (rewrite W; field; lra). exact Fw.
  - apply band_lin. unfold Rdiv. rewrite Rabs_mult. assert (I : 0 < / (1 + y) <= 2). { split; [apply Rinv_0_lt_compat; lra|]. replace 2 with (/ / 2) by field. apply Rinv_le; lra. }
    rewrite (Rabs_pos_eq (/ (1 + y))) by lra. apply Rle_trans with ((/ 2 * (4 * e24) + e24 * / 10) * 2); [apply Rmult_le_compat; try lra; apply Rabs_pos|]. replace (INR 5) with 5 by (cbn; lra). unfold e24. lra.
  - apply band_lin. change (INR 1) with 1. lra.
Qed.
(** ** Powers *)
Lemma ln_le : forall x y, 0 < x -> x <= y -> ln x <= ln y.
Proof. intros x y P [L| ->]; [left; apply ln_increasing; assumption|right; reflexivity]. Qed.
Lemma ln_40 : ln (2 ^ 40) <= 29.
Proof.
  assert (E : 2 <= exp (72 / 100)).
  { assert (X : exp (72 / 100) = exp (3 / 100) ^ 24). { rewrite <- (Rpower_pow 24 (exp (3 / 100))) by apply exp_pos. unfold Rpower. rewrite ln_exp. f_equal. cbn. lra. }
    pose proof (exp_ineq1_le (3 / 100)) as I. rewrite X. apply Rle_trans with ((1 + 3 / 100) ^ 24); [cbn; lra|]. apply pow_incr. lra. }
  rewrite ln_pow by lra. replace (INR 40) with 40 by (cbn; lra). assert (L : ln 2 <= 72 / 100); [|lra]. rewrite <- (ln_exp (72 / 100)). apply ln_le; lra.
Qed.
Lemma exp_band : forall z k, Rabs z <= / 1000 -> 1.002 * Rabs z <= INR k * e24 -> band k (exp z).
Proof.
  intros z k Z K. replace (exp z) with (1 + (exp z - 1)) by ring. apply band_lin. apply Rle_trans with (2 := K).
  pose proof (exp_close z 0 (Rabs z) ltac:(split; [apply Rabs_pos|exact Z]) ltac:(rewrite Rminus_0_r; lra)) as Q. rewrite exp_0 in Q. lra.
Qed.
(** the base is off by three roundings, the exponent by one *)
Lemma power_band : forall b e t d K, / 2 <= b <= 3 / 2 -> 0 <= e <= INR K -> (Z.of_nat K <= 4096)%Z -> / 2 ^ 40 <= Rpower b e <= 2 ^ 40 -> band 3 t -> Rabs d <= e24 ->
  exists u, Rpower (b * t) (e * (1 + d)) = Rpower b e * u /\ band (30 + 5 * K) u.
Proof.
  intros b e t d K Hb He HK R B D. assert (KR : INR K <= 4096) by (rewrite INR_IZR_INZ; apply IZR_le; exact HK).
  pose proof (band_linear 3 t ltac:(lia) B) as L. replace (INR 3) with 3 in L by (cbn; lra). assert (L' := Rabs_le_inv _ _ L). assert (D' := Rabs_le_inv _ _ D). pose proof e24_pos as E0. assert (Tp : 0.99 <= t <= 1.01) by (unfold e24 in L'; lra).
  exists (exp (e * d * ln b) * exp (e * (1 + d) * ln t)). split.
  - rewrite <- Rpower_mult_distr by lra. rewrite <- Rmult_assoc. unfold Rpower. f_equal. rewrite <- exp_plus. f_equal. ring.
  - apply band_prod.
    + assert (LB : Rabs (e * ln b) <= 29).
      { assert (E : e * ln b = ln (Rpower b e)) by (unfold Rpower; rewrite ln_exp; reflexivity). rewrite E. pose proof ln_40 as L40. assert (P40 : 0 < 2 ^ 40) by (apply pow_lt; lra). assert (PI : 0 < / 2 ^ 40) by (apply Rinv_0_lt_compat; exact P40).
        apply Rabs_le. split.
        - apply Rle_trans with (ln (/ 2 ^ 40)); [rewrite ln_Rinv by exact P40; lra|]. apply ln_le; lra.
        - apply Rle_trans with (2 := L40). apply ln_le; lra. }
      assert (Z : Rabs (e * d * ln b) <= 29 * e24).
      { replace (e * d * ln b) with (e * ln b * d) by ring. rewrite Rabs_mult. apply Rmult_le_compat; auto using Rabs_pos. }
      apply exp_band; [unfold e24 in Z; lra|]. replace (INR 30) with 30 by (cbn; lra). unfold e24 in *. lra.
    + assert (LT : Rabs (ln t) <= 1.01 * (4 / 3 * (3 * e24))).
      { replace t with (1 + (t - 1)) by ring. apply Rle_trans with (1 := ln_1p (t - 1) ltac:(unfold e24 in L; lra)). lra. }
      assert (EB : Rabs (e * (1 + d)) <= INR K * 1.001).
      { rewrite Rabs_mult, (Rabs_pos_eq e) by lra. apply Rmult_le_compat; try lra; [apply Rabs_pos|]. apply Rabs_le. unfold e24 in D'. lra. }
      assert (Z : Rabs (e * (1 + d) * ln t) <= INR K * 1.001 * (1.01 * (4 / 3 * (3 * e24)))) by (rewrite Rabs_mult; apply Rmult_le_compat; auto using Rabs_pos).
      pose proof (pos_INR K) as K0. apply exp_band; [unfold e24 in Z; lra|]. rewrite mult_INR. replace (INR 5) with 5 by (cbn; lra). unfold e24 in *. lra.
Qed.
