(** QOptProofs.v -- the rounding errors of the analytic option price. *)
From Coq Require Import ZArith List Reals Lra Lia Bool.
From Flocq Require Import Core Relative IEEE754.BinarySingleNaN.
From Verif Require Import Base FloatModel FloatFacts QInterpSpec QCurveSpec QFloatErr QLinProps QCurveFwdProps QBondProofs QBondPriceProps QCouponProps QFutModel QFutProps QNormal QOptSpec.
Open Scope R_scope.

Lemma inv100 : / two100 <= / 2 ^ 90.
Proof. apply Rinv_le; [apply pow_lt; lra|]. unfold two100. change (2 ^ 100)%Z with (1024 * 2 ^ 90)%Z. rewrite mult_IZR. rewrite pow_IZR. change (Z.of_nat 90) with 90%Z || idtac. assert (0 <= IZR (2 ^ 90)) by (apply IZR_le; apply Z.leb_le; reflexivity). change (2 ^ Z.of_nat 90)%Z with (2 ^ 90)%Z. lra. Qed.
Lemma small100 : / two100 <= / 1000000000000000000000000.
Proof. apply Rinv_le; [lra|]. unfold two100. apply IZR_le. apply Z.leb_le. reflexivity. Qed.
Lemma big100 : 1000000000000000000000000 <= two100.
Proof. unfold two100. apply IZR_le. apply Z.leb_le. reflexivity. Qed.

(** ** Away from underflow an operation has only a relative error *)
Lemma rnd_rel : forall x, / two100 <= Rabs x -> exists d, Rabs d <= e24 /\ rnd 24 128 x = x * (1 + d).
Proof.
  intros x L. destruct (relative_error_N_FLT_ex radix2 (-149) 24 ltac:(lia) (fun z => negb (Z.even z)) x) as (d & D & E).
  - apply Rle_trans with (2 := L). change (-149 + 24 - 1)%Z with (-126)%Z. unfold two100. change (2 ^ 100)%Z with (Zpower radix2 100). rewrite (IZR_Zpower radix2) by lia. rewrite <- bpow_opp. apply bpow_le. lia.
  - exists d. split; [|exact E]. apply Rle_trans with (1 := D). unfold e24. change (- (24) + 1)%Z with (-23)%Z. cbn [bpow radix2 radix_val Z.pow_pos Pos.iter]. unfold Z.pow_pos; cbn. lra.
Qed.
Lemma mul_rel : forall x y a b, fn x a -> fn y b -> / two100 <= Rabs (a * b) <= two100 -> exists d, Rabs d <= e24 /\ fn (gmul x y) (a * b * (1 + d)).
Proof.
  intros x y a b X Y [L U]. destruct (rnd_rel (a * b) L) as (d & D & E). exists d. split; [exact D|]. rewrite <- E. apply fin_mul; [exact X|exact Y|]. rewrite hug. apply two100_127. pose proof big100. lra.
Qed.
Lemma div_rel : forall x y a b, fn x a -> fn y b -> b <> 0 -> / two100 <= Rabs (a / b) <= two100 -> exists d, Rabs d <= e24 /\ fn (gdiv x y) (a / b * (1 + d)).
Proof.
  intros x y a b X Y N [L U]. destruct (rnd_rel (a / b) L) as (d & D & E). exists d. split; [exact D|]. rewrite <- E. apply fin_div; [exact X|exact Y|exact N|]. rewrite hug. apply two100_127. pose proof big100. lra.
Qed.
Lemma sqrt_rel : forall x a, fn x a -> 0 < a -> / two100 <= sqrt a -> exists d, Rabs d <= e24 /\ fn (gsqrt x) (sqrt a * (1 + d)).
Proof.
  intros x a [F V] P L. destruct (rnd_rel (sqrt a)) as (d & D & E); [rewrite Rabs_pos_eq by apply sqrt_pos; exact L|]. exists d. split; [exact D|].
  destruct (Bsqrt_correct 24 128 _ _ mode_NE x) as (S1 & S2 & _). split.
  - unfold gsqrt. rewrite S2. destruct x as [s| | |s m e h]; try discriminate F; [reflexivity|]. destruct s; [|reflexivity]. exfalso. cbn in V. subst a. unfold F2R in P; cbn in P. pose proof (bpow_gt_0 radix2 e).
    assert (IZR (Z.neg m) < 0) by (apply IZR_lt; lia). assert (0 < - IZR (Z.neg m) * bpow radix2 e) by (apply Rmult_lt_0_compat; lra). lra.
  - unfold gsqrt. rewrite S1, V. exact E.
Qed.
(** ** The price from the two probabilities *)
Definition weighted (k : option_type) (F K n1 n2 : R) : R := match k with Call => F * n1 - K * n2 | Put => K * (1 - n2) - F * (1 - n1) end.
(** the code's, on computed numbers *)
Definition weigh (k : option_type) (fwd strike nd1 nd2 dsc : f32) : f32 :=
  match k with
  | Call => gmul dsc (gsub (gmul fwd nd1) (gmul strike nd2))
  | Put => gmul dsc (gsub (gmul strike (gsub (gof_Z 1) nd2)) (gmul fwd (gsub (gof_Z 1) nd1)))
  end.
(** one product of an amount and a probability-like number *)
Lemma part : forall (x n : f32) X N e, fn x X -> 0 <= X <= 1073741824 -> forall m, fn n m -> Rabs (m - N) <= e * e24 -> 0 <= N <= 1 -> 0 <= e <= 2 ->
  exists p, fn (gmul x n) p /\ Rabs (p - X * N) <= X * ((e + 1.001) * e24) + tiny.
Proof.
  intros x n X N e Fx BX m Fm D BN BE. pose proof e24_pos as P24. pose proof tiny_1 as T1. assert (EE : e * e24 <= 2 * e24) by (apply Rmult_le_compat_r; lra).
  assert (M1 : Rabs m <= 1 + e * e24) by (replace m with (N + (m - N)) by ring; apply Rle_trans with (1 := Rabs_triang _ _); rewrite (Rabs_pos_eq N) by lra; lra).
  assert (M2 : Rabs m <= 2) by (unfold e24 in *; lra).
  assert (XM : Rabs (X * m) <= 1073741824 * 2) by (rewrite Rabs_mult, (Rabs_pos_eq X) by lra; apply Rmult_le_compat; try apply Rabs_pos; lra).
  destruct (mul_err x n X m Fx Fm) as (p & d & t & Fp & Hd & Ht & E); [apply two100_127; pose proof big100; lra|].
  exists p. split; [exact Fp|]. replace (p - X * N) with (X * (m - N) + X * m * d + t) by (rewrite E; ring).
  apply Rle_trans with (1 := Rabs_triang _ _). apply Rplus_le_compat; [|exact Ht]. apply Rle_trans with (1 := Rabs_triang _ _). rewrite !Rabs_mult, (Rabs_pos_eq X) by lra.
  assert (A1 : X * Rabs (m - N) <= X * (e * e24)) by (apply Rmult_le_compat_l; lra).
  assert (A2 : X * Rabs m * Rabs d <= X * (1 + 2 * e24) * e24) by (apply Rmult_le_compat; [apply Rmult_le_pos; [lra|apply Rabs_pos]|apply Rabs_pos| |exact Hd]; apply Rmult_le_compat_l; lra).
  assert (A3 : X * (1 + 2 * e24) * e24 <= X * (1.001 * e24)). { rewrite Rmult_assoc. apply Rmult_le_compat_l; [lra|]. apply Rmult_le_compat_r; unfold e24; lra. }
  replace (X * ((e + 1.001) * e24)) with (X * (e * e24) + X * (1.001 * e24)) by ring. lra.
Qed.
Lemma complement : forall (n : f32), finite n -> 0 <= value n <= 1 -> exists m, fn (gsub (gof_Z 1) n) m /\ Rabs (m - (1 - value n)) <= 1 * e24.
Proof.
  intros n Fn B. destruct (sub_err (gof_Z 1) n 1 (value n) one_fn (conj Fn eq_refl)) as (m & d & Fm & D & E).
  - apply two100_127. pose proof big100. rewrite Rabs_pos_eq by lra. lra.
  - exists m. split; [exact Fm|]. rewrite E. replace ((1 - value n) * (1 + d) - (1 - value n)) with ((1 - value n) * d) by ring. rewrite Rabs_mult. apply Rmult_le_compat; try apply Rabs_pos; [|exact D]. rewrite Rabs_pos_eq by lra. lra.
Qed.
(** a difference of two amounts, discounted *)
Lemma discounted_gap : forall (a b dsc : f32) p q A B S e, fn a p -> fn b q -> finite dsc -> 0 <= value dsc <= 1048576 -> 0 <= A -> 0 <= B -> A + B <= S -> S <= 2147483648 -> 0 <= e <= 4 ->
  Rabs (p - A) + Rabs (q - B) <= S * (e * e24) + 2 * tiny ->
  exists z, fn (gmul dsc (gsub a b)) z /\ Rabs (z - value dsc * (A - B)) <= value dsc * S * ((e + 2.01) * e24) + / 2 ^ 118.
Proof.
  intros a b dsc p q A B S e Fa Fb Fd BD PA PB AB BS BE H. set (D := value dsc) in *. pose proof tiny_1 as T1. pose proof e24_pos as P24. pose proof big100 as W.
  assert (SE : S * (e * e24) <= S * (4 * e24)) by (apply Rmult_le_compat_l; [lra|apply Rmult_le_compat_r; lra]).
  assert (SS : S * (4 * e24) <= S * (/ 1000000)) by (apply Rmult_le_compat_l; [lra|unfold e24; lra]).
  assert (G : Rabs (p - q) <= S + S * (e * e24) + 2 * tiny).
  { replace (p - q) with ((p - A) + - (q - B) + (A - B)) by ring. apply Rle_trans with (1 := Rabs_triang _ _). apply Rle_trans with (Rabs (p - A) + Rabs (q - B) + S); [|lra].
    apply Rplus_le_compat; [|apply Rabs_le; lra]. apply Rle_trans with (1 := Rabs_triang _ _). rewrite Rabs_Ropp. lra. }
  assert (G2 : Rabs (p - q) <= 4000000000) by lra.
  destruct (sub_err a b p q Fa Fb) as (g & c & Fg & Hc & Eg); [apply two100_127; lra|]. destruct (abs_one c Hc) as [Ac _].
  assert (G3 : Rabs g <= 4000000000 * 1.001) by (rewrite Eg, Rabs_mult; apply Rmult_le_compat; try apply Rabs_pos; assumption).
  assert (DG : Rabs (D * g) <= 1048576 * (4000000000 * 1.001)) by (rewrite Rabs_mult, (Rabs_pos_eq D) by lra; apply Rmult_le_compat; try apply Rabs_pos; lra).
  destruct (mul_err dsc (gsub a b) D g (conj Fd eq_refl) Fg) as (z & h & t & Fz & Hh & Ht & Ez); [apply two100_127; pose proof big100; lra|].
  exists z. split; [exact Fz|]. destruct (err_mul 1 1 c h ltac:(lra) ltac:(lra) ltac:(lra) ltac:(lra)) as (w & Hw & Ew).
  replace (z - D * (A - B)) with (D * ((p - A) - (q - B)) + D * ((p - q) * w) + t) by (rewrite Ez, Eg; replace w with ((1 + c) * (1 + h) - 1) by (rewrite Ew; ring); ring).
  apply Rle_trans with (1 := Rabs_triang _ _). apply Rle_trans with (Rabs (D * ((p - A) - (q - B))) + Rabs (D * ((p - q) * w)) + tiny); [apply Rplus_le_compat; [apply Rabs_triang|exact Ht]|].
  rewrite !(Rabs_mult D), (Rabs_pos_eq D) by lra.
  assert (X1 : Rabs ((p - A) - (q - B)) <= S * (e * e24) + 2 * tiny) by (apply Rle_trans with (2 := H); replace ((p - A) - (q - B)) with ((p - A) + - (q - B)) by ring; apply Rle_trans with (1 := Rabs_triang _ _); rewrite Rabs_Ropp; lra).
  assert (X2 : Rabs ((p - q) * w) <= (S + S * (e * e24) + 2 * tiny) * (2.001 * e24)) by (rewrite Rabs_mult; apply Rmult_le_compat; try apply Rabs_pos; [exact G|unfold e24 in *; lra]).
  assert (X3 : (S + S * (e * e24) + 2 * tiny) * (2.001 * e24) <= S * (2.01 * e24) + tiny).
  { apply Rle_trans with ((S * 1.000001 + 2 * tiny) * (2.001 * e24)); [apply Rmult_le_compat_r; [unfold e24; lra|lra]|]. replace ((S * 1.000001 + 2 * tiny) * (2.001 * e24)) with (S * (1.000001 * 2.001 * e24) + tiny * (2 * 2.001 * e24)) by ring.
    apply Rplus_le_compat; [apply Rmult_le_compat_l; [lra|unfold e24; lra]|]. rewrite <- (Rmult_1_r tiny) at 2. apply Rmult_le_compat_l; [lra|unfold e24; lra]. }
  assert (Y : D * Rabs (p - A - (q - B)) + D * Rabs ((p - q) * w) <= D * (S * ((e + 2.01) * e24) + 3 * tiny)).
  { rewrite <- Rmult_plus_distr_l. apply Rmult_le_compat_l; [lra|]. replace (S * ((e + 2.01) * e24)) with (S * (e * e24) + S * (2.01 * e24)) by ring. lra. }
  assert (Z : D * (3 * tiny) + tiny <= / 2 ^ 118).
  { apply Rle_trans with (tiny * (3 * 1048576 + 1)); [|apply tiny118; lra]. assert (D * (3 * tiny) <= 1048576 * (3 * tiny)) by (apply Rmult_le_compat_r; lra). lra. }
  rewrite Rmult_plus_distr_l in Y. replace (D * (S * ((e + 2.01) * e24))) with (D * S * ((e + 2.01) * e24)) in Y by ring. lra.
Qed.
Lemma weigh_close : forall k (fwd strike nd1 nd2 dsc : f32), finite fwd -> 0 <= value fwd <= 2 ^ 30 -> finite strike -> 0 <= value strike <= 2 ^ 30 -> finite dsc -> 0 <= value dsc <= 2 ^ 20 ->
  finite nd1 -> 0 <= value nd1 <= 1 -> finite nd2 -> 0 <= value nd2 <= 1 ->
  exists z, fn (weigh k fwd strike nd1 nd2 dsc) z /\ Rabs (z - value dsc * weighted k (value fwd) (value strike) (value nd1) (value nd2)) <= value dsc * (value fwd + value strike) * (5 * e24) + / 2 ^ 118.
Proof.
  intros k fwd strike nd1 nd2 dsc FF BF FK BK FD BD F1 B1 F2 B2. rewrite p30 in BF, BK. rewrite p20 in BD. set (F := value fwd) in *. set (K := value strike) in *. set (D := value dsc) in *. set (n1 := value nd1) in *. set (n2 := value nd2) in *.
  pose proof e24_pos as P24. pose proof tiny_1 as T1.
  assert (E5 : forall e, e <= 2.99 -> D * (F + K) * ((e + 2.01) * e24) <= D * (F + K) * (5 * e24)) by (intros e He; apply Rmult_le_compat_l; [apply Rmult_le_pos; lra|apply Rmult_le_compat_r; lra]).
  assert (W1 : 0 <= F * n1 <= F) by (split; [apply Rmult_le_pos; lra|rewrite <- (Rmult_1_r F) at 2; apply Rmult_le_compat_l; lra]).
  assert (W2 : 0 <= K * n2 <= K) by (split; [apply Rmult_le_pos; lra|rewrite <- (Rmult_1_r K) at 2; apply Rmult_le_compat_l; lra]).
  assert (W3 : 0 <= F * (1 - n1) <= F) by (split; [apply Rmult_le_pos; lra|rewrite <- (Rmult_1_r F) at 2; apply Rmult_le_compat_l; lra]).
  assert (W4 : 0 <= K * (1 - n2) <= K) by (split; [apply Rmult_le_pos; lra|rewrite <- (Rmult_1_r K) at 2; apply Rmult_le_compat_l; lra]).
  destruct k; unfold weigh, weighted.
  - destruct (part fwd nd1 F n1 0 (conj FF eq_refl) ltac:(lra) n1 (conj F1 eq_refl) ltac:(rewrite Rminus_eq_0, Rabs_R0; lra) ltac:(lra) ltac:(lra)) as (p & Fp & P).
    destruct (part strike nd2 K n2 0 (conj FK eq_refl) ltac:(lra) n2 (conj F2 eq_refl) ltac:(rewrite Rminus_eq_0, Rabs_R0; lra) ltac:(lra) ltac:(lra)) as (q & Fq & Q).
    destruct (discounted_gap _ _ dsc p q (F * n1) (K * n2) (F + K) 1.001 Fp Fq FD ltac:(fold D; lra) ltac:(lra) ltac:(lra) ltac:(lra) ltac:(lra) ltac:(lra) ltac:(lra)) as (z & Fz & Z).
    exists z. split; [exact Fz|]. fold D in Z. specialize (E5 1.001 ltac:(lra)). lra.
  - destruct (complement nd1 F1 B1) as (m1 & Fm1 & M1). destruct (complement nd2 F2 B2) as (m2 & Fm2 & M2).
    destruct (part fwd _ F (1 - n1) 1 (conj FF eq_refl) ltac:(lra) m1 Fm1 M1 ltac:(lra) ltac:(lra)) as (p & Fp & P).
    destruct (part strike _ K (1 - n2) 1 (conj FK eq_refl) ltac:(lra) m2 Fm2 M2 ltac:(lra) ltac:(lra)) as (q & Fq & Q).
    destruct (discounted_gap _ _ dsc q p (K * (1 - n2)) (F * (1 - n1)) (F + K) 2.001 Fq Fp FD ltac:(fold D; lra) ltac:(lra) ltac:(lra) ltac:(lra) ltac:(lra) ltac:(lra) ltac:(lra)) as (z & Fz & Z).
    exists z. split; [exact Fz|]. fold D in Z. specialize (E5 2.001 ltac:(lra)). lra.
Qed.

(** ** The arguments of the distribution function *)

Lemma exp_20 : 1048576 <= exp 20.
Proof.
  replace (exp 20) with ((exp 1) ^ 20).
  - apply Rle_trans with (2 ^ 20); [rewrite p20; lra|]. apply pow_incr. pose proof (exp_ineq1_le 1). lra.
  - rewrite <- (Rpower_pow 20 (exp 1)) by apply exp_pos. unfold Rpower. rewrite ln_exp. f_equal. rewrite INR_IZR_INZ. cbn. lra.
Qed.
Lemma ln_bound : forall x, / 1048576 <= x <= 1048576 -> Rabs (ln x) <= 20.
Proof.
  assert (U : forall x, 0 < x <= 1048576 -> ln x <= 20).
  { intros x [P U]. rewrite <- (ln_exp 20). pose proof exp_20 as E. assert (x <= exp 20) by lra. destruct H as [H|H]; [left; apply ln_increasing; lra|rewrite H; apply Rle_refl]. }
  intros x [L H]. apply Rabs_le. split; [|apply U; lra]. assert (P : 0 < x) by lra. pose proof (U (/ x)) as Q. rewrite ln_Rinv in Q by exact P.
  assert (0 < / x <= 1048576) by (split; [apply Rinv_0_lt_compat; exact P|rewrite <- (Rinv_inv 1048576); apply Rinv_le; lra]). specialize (Q H0). lra.
Qed.
Lemma err_inv3 : forall x, Rabs x <= 3 * e24 -> exists z, Rabs z <= 3.001 * e24 /\ / (1 + x) = 1 + z.
Proof.
  intros x Hx. apply Rabs_le_inv in Hx. unfold e24 in Hx. exists (- x / (1 + x)). split; [|field; lra].
  unfold Rdiv. rewrite Rabs_mult, Rabs_Ropp, Rabs_inv. rewrite (Rabs_pos_eq (1 + x)) by lra.
  assert (A : Rabs x <= 3 * e24) by (unfold e24; apply Rabs_le; lra). apply Rle_trans with (3 * e24 * / 0.99999); [|unfold e24; lra].
  apply Rmult_le_compat; [apply Rabs_pos|left; apply Rinv_0_lt_compat; lra|exact A|apply Rinv_le; lra].
Qed.
(** the logarithm of the moneyness *)
Lemma log_close : forall f_ln (strike fwd : f32), good_ln f_ln -> finite strike -> finite fwd -> 0 < value strike -> 0 < value fwd -> / 1048576 <= value strike / value fwd <= 1048576 ->
  exists y, fn (f_ln (gdiv strike fwd)) y /\ Rabs (y - ln (value strike / value fwd)) <= (4 * Rabs (ln (value strike / value fwd)) + 1.02) * e24.
Proof.
  intros f_ln strike fwd GL FK FF PK PF R. set (K := value strike) in *. set (F := value fwd) in *.
  assert (A : Rabs (K / F) = K / F) by (apply Rabs_pos_eq; lra).
  destruct (div_rel strike fwd K F (conj FK eq_refl) (conj FF eq_refl) ltac:(lra)) as (d & D & [Fm Vm]); [rewrite A; pose proof small100; pose proof big100; lra|].
  destruct (abs_one d D) as [_ D1]. set (m := gdiv strike fwd) in *. fold (value m) in Vm. assert (PM : 0 < value m) by (rewrite Vm; apply Rmult_lt_0_compat; lra).
  destruct (GL m Fm PM) as [FY EY]. exists (value (f_ln m)). split; [split; [exact FY|reflexivity]|]. rewrite Vm in EY. rewrite ln_mult in EY by lra. set (y := ln (K / F)) in *.
  assert (L1 : Rabs (ln (1 + d)) <= 1.01 * e24). { apply Rle_trans with (1.01 * Rabs d); [apply ln_1p; unfold e24 in D; lra|lra]. }
  set (l := ln (1 + d)) in *. set (v := value (f_ln m)) in *. clearbody l v y. replace (v - y) with ((v - (y + l)) + l) by ring. apply Rle_trans with (1 := Rabs_triang _ _).
  assert (Rabs (y + l) <= Rabs y + 1.01 * e24) by (apply Rle_trans with (1 := Rabs_triang _ _); lra).
  assert (E22 : 2 ^ 22 = 4194304) by (rewrite pow_IZR; reflexivity). rewrite E22 in EY. pose proof (Rabs_pos y). unfold e24 in *. lra.
Qed.
Lemma two_fn : fn (gof_Z 2) 2.
Proof.
  pose proof (fin_of_Z 24 128 2) as H. rewrite (rnd_int 24 128 2) in H by (apply Z.leb_le; reflexivity). apply H. rewrite Rabs_pos_eq by lra.
  apply Rle_trans with (bpow radix2 1); [right; reflexivity|]. apply bpow_le. lia.
Qed.
(** half the variance, and the deviation, of a constant volatility *)
Lemma half_variance : forall (v t : f32), finite v -> / 1024 <= value v <= 16 -> finite t -> / 1048576 <= value t <= 128 ->
  exists d, Rabs d <= 3.01 * e24 /\ fn (gdiv (gmul (gmul v v) t) (gof_Z 2)) (value v * value v * value t / 2 * (1 + d)).
Proof.
  intros v t Fv Bv Ft Bt. set (V := value v) in *. set (T := value t) in *. pose proof small100 as S1. pose proof big100 as S2.
  assert (VV : / 1024 * / 1024 <= V * V <= 16 * 16) by (split; apply Rmult_le_compat; lra).
  destruct (mul_rel v v V V (conj Fv eq_refl) (conj Fv eq_refl)) as (a & A & FA); [rewrite Rabs_pos_eq by lra; lra|]. destruct (abs_one a A) as [_ A1].
  assert (VA : / 1024 * / 1024 * 0.999 <= V * V * (1 + a) <= 16 * 16 * 1.001) by (split; apply Rmult_le_compat; lra).
  assert (VT : / 1024 * / 1024 * 0.999 * / 1048576 <= V * V * (1 + a) * T <= 16 * 16 * 1.001 * 128) by (split; apply Rmult_le_compat; lra).
  destruct (mul_rel (gmul v v) t _ T FA (conj Ft eq_refl)) as (b & B & FB); [rewrite Rabs_pos_eq by lra; lra|]. destruct (abs_one b B) as [_ B1].
  set (X := V * V * (1 + a) * T * (1 + b)) in *.
  assert (XB : / 1024 * / 1024 * 0.999 * / 1048576 * 0.999 <= X <= 16 * 16 * 1.001 * 128 * 1.001) by (unfold X; split; apply Rmult_le_compat; lra).
  destruct (div_rel _ (gof_Z 2) X 2 FB two_fn ltac:(lra)) as (c & C & FC); [rewrite Rabs_pos_eq by lra; lra|].
  destruct (err_mul 1 1 a b ltac:(lra) ltac:(lra) ltac:(lra) ltac:(lra)) as (w & W & EW). destruct (err_mul 2.001 1 w c ltac:(lra) ltac:(lra) ltac:(lra) ltac:(lra)) as (z & Z & EZ).
  exists z. split; [unfold e24 in *; lra|]. replace (V * V * T / 2 * (1 + z)) with (X / 2 * (1 + c)); [exact FC|]. rewrite <- EZ, <- EW. unfold X. field.
Qed.
Lemma deviation : forall (v t : f32), finite v -> / 1024 <= value v <= 16 -> finite t -> / 1048576 <= value t <= 128 ->
  exists d, Rabs d <= 2.001 * e24 /\ fn (gmul v (gsqrt t)) (value v * sqrt (value t) * (1 + d)).
Proof.
  intros v t Fv Bv Ft Bt. set (V := value v) in *. set (T := value t) in *. pose proof small100 as S1. pose proof big100 as S2.
  assert (S : / 1024 <= sqrt T <= 12). { split; [rewrite <- (sqrt_square (/ 1024)) by lra; apply sqrt_le_1; lra|rewrite <- (sqrt_square 12) by lra; apply sqrt_le_1; lra]. }
  destruct (sqrt_rel t T (conj Ft eq_refl) ltac:(lra) ltac:(lra)) as (a & A & FA). destruct (abs_one a A) as [_ A1].
  assert (B : / 1024 * 0.999 <= sqrt T * (1 + a) <= 12 * 1.001) by (split; apply Rmult_le_compat; lra).
  assert (VB : / 1024 * (/ 1024 * 0.999) <= V * (sqrt T * (1 + a)) <= 16 * (12 * 1.001)) by (split; apply Rmult_le_compat; lra).
  destruct (mul_rel v (gsqrt t) V _ (conj Fv eq_refl) FA) as (b & HB & FB); [rewrite Rabs_pos_eq by lra; lra|].
  destruct (err_mul 1 1 a b ltac:(lra) ltac:(lra) ltac:(lra) ltac:(lra)) as (w & W & EW). exists w. split; [unfold e24 in *; lra|].
  replace (V * sqrt T * (1 + w)) with (V * (sqrt T * (1 + a)) * (1 + b)); [exact FB|]. rewrite <- EW. ring.
Qed.

Lemma arguments : forall (yf hf df : f32) y Y a s b, fn yf Y -> Rabs (Y - y) <= (4 * Rabs y + 1.02) * e24 -> Rabs y <= 20 -> fn hf (s * s / 2 * (1 + a)) -> Rabs a <= 3.01 * e24 ->
  fn df (s * (1 + b)) -> Rabs b <= 2.001 * e24 -> / 1048576 <= s <= 200 ->
  exists x1 x2, fn (gdiv (gsub (gadd (gneg yf) hf) (gof_Z 0)) df) x1 /\ Rabs (x1 - (- y / s + s / 2)) <= (12 * Rabs y + 2 + 6 * (s * s)) / s * e24 /\
    fn (gsub (gdiv (gsub (gadd (gneg yf) hf) (gof_Z 0)) df) df) x2 /\ Rabs (x2 - (- y / s - s / 2)) <= (13 * Rabs y + 2 + 8 * (s * s)) / s * e24.
Proof.
  intros yf hf df y Y a s b FY EY BY FH HA FD HB BS. pose proof big100 as S2. pose proof e24_pos as P24. pose proof (Rabs_pos y) as Y0. set (ay := Rabs y) in *. set (q := s * s) in *.
  assert (Q0 : 0 <= q <= 40000) by (unfold q; split; [apply Rmult_le_pos; lra|apply Rle_trans with (200 * 200); [apply Rmult_le_compat; lra|lra]]).
  assert (IS : 0 < / s <= 1048576) by (split; [apply Rinv_0_lt_compat; lra|rewrite <- (Rinv_inv 1048576); apply Rinv_le; lra]).
  assert (IS2 : / 200 <= / s) by (apply Rinv_le; lra).
  assert (QA : Rabs (q / 2 * a) <= q / 2 * (3.01 * e24)) by (rewrite Rabs_mult, (Rabs_pos_eq (q / 2)) by lra; apply Rmult_le_compat_l; lra).
  set (N := - y + q / 2). set (A := - Y + q / 2 * (1 + a)).
  assert (AN : Rabs (A - N) <= (4 * ay + 1.02 + 1.505 * q) * e24).
  { unfold A, N. replace (- Y + q / 2 * (1 + a) - (- y + q / 2)) with (- (Y - y) + q / 2 * a) by ring. apply Rle_trans with (1 := Rabs_triang _ _). rewrite Rabs_Ropp. lra. }
  assert (BN : Rabs N <= ay + q / 2) by (unfold N; apply Rle_trans with (1 := Rabs_triang _ _); rewrite Rabs_Ropp, (Rabs_pos_eq (q / 2)) by lra; fold ay; lra).
  assert (AE : (4 * ay + 1.02 + 1.505 * q) * e24 <= (ay + q + 1) * / 1000000) by (unfold e24; lra).
  assert (BA : Rabs A <= 1.001 * ay + 0.501 * q + / 1000000). { replace A with ((A - N) + N) by ring. apply Rle_trans with (1 := Rabs_triang _ _). lra. }
  destruct (add_err (gneg yf) hf (- Y) (q / 2 * (1 + a)) (fin_neg 24 128 yf Y FY) FH) as (n0 & c1 & F0 & C1 & E0); [fold A; apply two100_127; lra|]. fold A in E0. destruct (abs_one c1 C1) as [A1 _].
  assert (B0 : Rabs n0 <= 30000 * 1.001) by (rewrite E0, Rabs_mult; apply Rmult_le_compat; try apply Rabs_pos; lra).
  destruct (sub_err _ (gof_Z 0) n0 0 F0 zero_fn) as (n1 & c2 & F1 & C2 & E1); [apply two100_127; rewrite Rminus_0_r; lra|]. rewrite Rminus_0_r in E1. destruct (abs_one c2 C2) as [A2 _].
  assert (B1 : Rabs n1 <= 30000 * 1.001 * 1.001) by (rewrite E1, Rabs_mult; apply Rmult_le_compat; try apply Rabs_pos; lra).
  destruct (err_inv3 b ltac:(lra)) as (ib & IB & EB).
  assert (DB : 0.999 <= 1 + b <= 1.001) by (apply Rabs_le_inv in HB; unfold e24 in HB; lra).
  assert (SB : s * (1 + b) <> 0) by (apply Rmult_integral_contrapositive_currified; lra).
  assert (ES : n1 / (s * (1 + b)) = n1 * / s * (1 + ib)) by (rewrite <- EB; field; lra).
  assert (BB : Rabs (1 + ib) <= 1.001) by (apply Rabs_le_inv in IB; unfold e24 in IB; apply Rabs_le; lra).
  assert (B2 : Rabs (n1 * / s * (1 + ib)) <= 30000 * 1.001 * 1.001 * 1048576 * 1.001).
  { rewrite !Rabs_mult, (Rabs_pos_eq (/ s)) by lra. apply Rmult_le_compat; [apply Rmult_le_pos; [apply Rabs_pos|lra]|apply Rabs_pos| |exact BB]. apply Rmult_le_compat; try apply Rabs_pos; lra. }
  destruct (div_err _ df n1 (s * (1 + b)) F1 FD SB) as (x1 & c3 & t & FX & C3 & HT & EX); [rewrite ES; apply two100_127; lra|].
  destruct (three c1 c2 c3 C1 C2 C3) as (w3 & W3 & EW3). destruct (err_mul 4 3.001 w3 ib ltac:(lra) ltac:(lra) W3 IB) as (w & W & EW).
  assert (X1 : x1 = A * / s * (1 + w) + t). { rewrite EX, ES, E1, E0, <- EW, <- EW3. ring. }
  assert (TS : tiny <= / s * (/ 1000 * e24)).
  { apply Rle_trans with (/ 200 * (/ 1000 * e24)); [|apply Rmult_le_compat_r; [unfold e24; lra|exact IS2]]. pose proof (tiny118 4294967296 ltac:(lra)) as Q. assert (/ 2 ^ 118 <= 1) by (rewrite <- Rinv_1; apply Rinv_le; [lra|]; apply pow_R1_Rle; lra). unfold e24.
    assert (/ 2 ^ 118 <= / 2 ^ 20) by (apply Rinv_le; [apply pow_lt; lra|]; apply Rle_pow; [lra|lia]). rewrite p20 in *. lra. }
  assert (AW : Rabs (A * w) <= (1.001 * ay + 0.501 * q + / 1000000) * (7.002 * e24)) by (rewrite Rabs_mult; apply Rmult_le_compat; try apply Rabs_pos; [exact BA|unfold e24 in *; lra]).
  assert (R1 : Rabs (x1 - (- y / s + s / 2)) <= / s * ((11.1 * ay + 1.1 + 5.1 * q) * e24)).
  { replace (- y / s + s / 2) with (N * / s) by (unfold N, q; field; lra). rewrite X1. replace (A * / s * (1 + w) + t - N * / s) with (/ s * ((A - N) + A * w) + t) by ring.
    apply Rle_trans with (1 := Rabs_triang _ _). rewrite Rabs_mult, (Rabs_pos_eq (/ s)) by lra.
    apply Rle_trans with (/ s * ((4 * ay + 1.02 + 1.505 * q) * e24 + (1.001 * ay + 0.501 * q + / 1000000) * (7.002 * e24)) + / s * (/ 1000 * e24)).
    - apply Rplus_le_compat; [|lra]. apply Rmult_le_compat_l; [lra|]. apply Rle_trans with (1 := Rabs_triang _ _). lra.
    - rewrite <- Rmult_plus_distr_l. apply Rmult_le_compat_l; [lra|]. unfold e24. lra. }
  assert (BD : Rabs (s * b) <= / s * (q * (2.001 * e24))). { rewrite Rabs_mult, (Rabs_pos_eq s) by lra. replace (/ s * (q * (2.001 * e24))) with (s * (2.001 * e24)) by (unfold q; field; lra). apply Rmult_le_compat_l; lra. }
  assert (NS : Rabs (- y / s - s / 2) <= / s * (ay + q / 2)).
  { replace (- y / s - s / 2) with (/ s * (- y + - (q / 2))) by (unfold q; field; lra). rewrite Rabs_mult, (Rabs_pos_eq (/ s)) by lra. apply Rmult_le_compat_l; [lra|]. apply Rle_trans with (1 := Rabs_triang _ _). rewrite !Rabs_Ropp, (Rabs_pos_eq (q / 2)) by lra. fold ay. lra. }
  assert (G : Rabs (x1 - s * (1 + b) - (- y / s - s / 2)) <= / s * ((11.1 * ay + 1.1 + 7.101 * q) * e24)).
  { replace (x1 - s * (1 + b) - (- y / s - s / 2)) with ((x1 - (- y / s + s / 2)) + - (s * b)) by (field; lra). apply Rle_trans with (1 := Rabs_triang _ _). rewrite Rabs_Ropp.
    replace (/ s * ((11.1 * ay + 1.1 + 7.101 * q) * e24)) with (/ s * ((11.1 * ay + 1.1 + 5.1 * q) * e24) + / s * (q * (2.001 * e24))) by (rewrite <- Rmult_plus_distr_l; f_equal; lra). apply Rplus_le_compat; assumption. }
  assert (G2 : Rabs (x1 - s * (1 + b)) <= / s * (1.01 * ay + 0.51 * q + / 1000)).
  { replace (x1 - s * (1 + b)) with ((x1 - s * (1 + b) - (- y / s - s / 2)) + (- y / s - s / 2)) by ring. apply Rle_trans with (1 := Rabs_triang _ _).
    apply Rle_trans with (/ s * ((11.1 * ay + 1.1 + 7.101 * q) * e24) + / s * (ay + q / 2)); [lra|]. rewrite <- Rmult_plus_distr_l. apply Rmult_le_compat_l; [lra|]. unfold e24. lra. }
  assert (G3 : Rabs (x1 - s * (1 + b)) <= 1048576 * 30000) by (apply Rle_trans with (1 := G2); apply Rmult_le_compat; lra).
  destruct (sub_err _ df x1 (s * (1 + b)) FX FD) as (x2 & c4 & FX2 & C4 & EX2); [apply two100_127; lra|].
  exists x1, x2. split; [exact FX|]. split; [|split; [exact FX2|]].
  - apply Rle_trans with (1 := R1). unfold Rdiv. rewrite (Rmult_comm _ (/ s)), Rmult_assoc. apply Rmult_le_compat_l; [lra|]. apply Rmult_le_compat_r; lra.
  - replace (x2 - (- y / s - s / 2)) with ((x1 - s * (1 + b) - (- y / s - s / 2)) + (x1 - s * (1 + b)) * c4) by (rewrite EX2; ring). apply Rle_trans with (1 := Rabs_triang _ _).
    assert (G4 : Rabs ((x1 - s * (1 + b)) * c4) <= / s * (1.01 * ay + 0.51 * q + / 1000) * e24) by (rewrite Rabs_mult; apply Rmult_le_compat; try apply Rabs_pos; assumption).
    apply Rle_trans with (/ s * ((11.1 * ay + 1.1 + 7.101 * q) * e24) + / s * ((1.01 * ay + 0.51 * q + / 1000) * e24)); [lra|]. rewrite <- Rmult_plus_distr_l.
    unfold Rdiv. rewrite (Rmult_comm _ (/ s)), Rmult_assoc. apply Rmult_le_compat_l; [lra|]. unfold e24. lra.
Qed.

(** ** The whole of it, for a constant volatility *)
Lemma black_close : forall f_ln f_cdf k (fwd strike v t dsc : f32), good_ln f_ln -> good_cdf f_cdf ->
  finite fwd -> 0 < value fwd <= 2 ^ 30 -> finite strike -> 0 < value strike <= 2 ^ 30 -> / 2 ^ 20 <= value strike / value fwd <= 2 ^ 20 ->
  finite v -> / 2 ^ 10 <= value v <= 16 -> finite t -> / 2 ^ 20 <= value t <= 128 -> finite dsc -> 0 <= value dsc <= 2 ^ 20 ->
  let F := value fwd in let K := value strike in let D := value dsc in let s := value v * sqrt (value t) in
  exists z, fn (black f_ln f_cdf k fwd strike (gdiv strike fwd) (gmul (gmul v v) t) (gmul v (gsqrt t)) (gof_Z 0) dsc) z /\
    Rabs (z - D * black_value k F K s) <= D * (F + K) * ((9 + (7 * Rabs (ln (K / F)) + 1 + 4 * (s * s)) / s) / 2 ^ 24) + / 2 ^ 118.
Proof.
  intros f_ln f_cdf k fwd strike v t dsc GL (GC & _) FF BF FK BK R Fv Bv Ft Bt FD BD F K D s.
  rewrite p20 in R, Bt. rewrite p10 in Bv.
  destruct (log_close f_ln strike fwd GL FK FF ltac:(lra) ltac:(lra) R) as (Y & FY & EY). pose proof (ln_bound _ R) as BY. fold K F in EY, BY. set (y := ln (K / F)) in *.
  destruct (half_variance v t Fv Bv Ft Bt) as (a & HA & FH). destruct (deviation v t Fv Bv Ft Bt) as (b & HB & FDV). fold s in FDV.
  assert (S : / 1024 <= sqrt (value t) <= 12). { split; [rewrite <- (sqrt_square (/ 1024)) by lra; apply sqrt_le_1; lra|rewrite <- (sqrt_square 12) by lra; apply sqrt_le_1; lra]. }
  assert (BS : / 1048576 <= s <= 200). { unfold s. split; [apply Rle_trans with (/ 1024 * / 1024); [lra|]|apply Rle_trans with (16 * 12); [|lra]]; apply Rmult_le_compat; lra. }
  replace (value v * value v * value t / 2 * (1 + a)) with (s * s / 2 * (1 + a)) in FH by (unfold s; replace (value v * sqrt (value t) * (value v * sqrt (value t))) with (value v * value v * (sqrt (value t) * sqrt (value t))) by ring; rewrite sqrt_sqrt by lra; reflexivity).
  destruct (arguments _ _ _ y Y a s b FY EY BY FH HA FDV HB BS) as (x1 & x2 & [F1 V1] & E1 & [F2 V2] & E2).
  set (d1 := gdiv (gsub (gadd (gneg (f_ln (gdiv strike fwd))) (gdiv (gmul (gmul v v) t) (gof_Z 2))) (gof_Z 0)) (gmul v (gsqrt t))) in *. set (d2 := gsub d1 (gmul v (gsqrt t))) in *. fold (value d1) in V1. fold (value d2) in V2.
  destruct (GC d1 F1) as (FN1 & BN1 & C1). destruct (GC d2 F2) as (FN2 & BN2 & C2). rewrite V1 in C1. rewrite V2 in C2.
  destruct (weigh_close k fwd strike (f_cdf d1) (f_cdf d2) dsc FF ltac:(lra) FK ltac:(lra) FD BD FN1 BN1 FN2 BN2) as (z & Fz & Ez). exists z. split; [exact Fz|].
  fold F K D in Ez. set (n1 := value (f_cdf d1)) in *. set (n2 := value (f_cdf d2)) in *. rewrite p20 in BD. rewrite p30 in BF, BK. rewrite p24'.
  set (Q := 13 * Rabs y + 2 + 8 * (s * s)). assert (IS : 0 < / s) by (apply Rinv_0_lt_compat; lra). pose proof (Rabs_pos y) as AY. assert (QQ : 0 <= s * s) by (apply Rmult_le_pos; lra).
  assert (E1' : Rabs (x1 - (- y / s + s / 2)) <= Q / s * e24). { apply Rle_trans with (1 := E1). unfold Rdiv. apply Rmult_le_compat_r; [left; apply e24_pos|]. apply Rmult_le_compat_r; [lra|]. unfold Q. lra. }
  assert (E22 : / 2 ^ 22 = 4 * e24) by (rewrite pow_IZR; change (2 ^ Z.of_nat 22)%Z with 4194304%Z; unfold e24; lra). rewrite E22 in C1, C2.
  assert (PP : forall n x d, Rabs (n - Phi x) <= 4 * e24 -> Rabs (x - d) <= Q / s * e24 -> Rabs (n - Phi d) <= 4 * e24 + Q / s * e24 / 2).
  { intros n x d A B. replace (n - Phi d) with ((n - Phi x) + (Phi x - Phi d)) by ring. apply Rle_trans with (1 := Rabs_triang _ _). pose proof (Phi_lip x d). lra. }
  pose proof (PP n1 x1 _ C1 E1') as P1. pose proof (PP n2 x2 _ C2 E2) as P2. set (E := 4 * e24 + Q / s * e24 / 2) in *.
  assert (BV : Rabs (weighted k F K n1 n2 - black_value k F K s) <= (F + K) * E).
  { assert (LN : ln (F / K) = - y). { unfold y. replace (F / K) with (/ (K / F)) by (unfold F, K; field; lra). apply ln_Rinv. apply Rdiv_lt_0_compat; unfold F, K; lra. }
    unfold black_value. rewrite LN. set (g1 := - y / s + s / 2) in *. set (g2 := - y / s - s / 2) in *.
    assert (T : Rabs (F * (n1 - Phi g1)) <= F * E) by (rewrite Rabs_mult, (Rabs_pos_eq F) by (unfold F; lra); apply Rmult_le_compat_l; [unfold F; lra|exact P1]).
    assert (U : Rabs (K * (n2 - Phi g2)) <= K * E) by (rewrite Rabs_mult, (Rabs_pos_eq K) by (unfold K; lra); apply Rmult_le_compat_l; [unfold K; lra|exact P2]).
    destruct k; unfold weighted.
    - replace (F * n1 - K * n2 - (F * Phi g1 - K * Phi g2)) with (F * (n1 - Phi g1) + - (K * (n2 - Phi g2))) by ring. apply Rle_trans with (1 := Rabs_triang _ _). rewrite Rabs_Ropp. lra.
    - rewrite !Phi_sym. replace (K * (1 - n2) - F * (1 - n1) - (K * (1 - Phi g2) - F * (1 - Phi g1))) with (F * (n1 - Phi g1) + - (K * (n2 - Phi g2))) by ring. apply Rle_trans with (1 := Rabs_triang _ _). rewrite Rabs_Ropp. lra. }
  assert (D0 : 0 <= D) by (unfold D; lra). assert (FK0 : 0 <= F + K) by (unfold F, K; lra).
  replace (z - D * black_value k F K s) with ((z - D * weighted k F K n1 n2) + D * (weighted k F K n1 n2 - black_value k F K s)) by ring. apply Rle_trans with (1 := Rabs_triang _ _).
  assert (DB : Rabs (D * (weighted k F K n1 n2 - black_value k F K s)) <= D * ((F + K) * E)) by (rewrite Rabs_mult, (Rabs_pos_eq D) by lra; apply Rmult_le_compat_l; assumption).
  assert (FIN : D * (F + K) * (5 * e24) + D * ((F + K) * E) <= D * (F + K) * ((9 + (7 * Rabs y + 1 + 4 * (s * s)) / s) / 16777216)).
  { rewrite <- (Rmult_assoc D). rewrite <- Rmult_plus_distr_l. apply Rmult_le_compat_l; [apply Rmult_le_pos; assumption|].
    assert (QS : Q / s <= 2 * ((7 * Rabs y + 1 + 4 * (s * s)) / s)). { unfold Rdiv. rewrite <- Rmult_assoc. apply Rmult_le_compat_r; [lra|]. unfold Q. lra. }
    unfold E, e24. lra. }
  lra.
Qed.
