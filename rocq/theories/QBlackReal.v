(** QBlackReal.v -- Black's formula in real numbers: parity, growth in the
    deviation, and the bounds without arbitrage. *)
From Coq Require Import Reals Lra Lia.
From Coquelicot Require Import Coquelicot.
From Verif Require Import QFutModel QNormal QOptSpec.
Open Scope R_scope.

Local Ltac inR := match goal with |- @eq _ ?a ?b => change (@eq R a b) end.
(** the tail of the distribution *)
Lemma tail : forall x, 0 <= x -> Phi (- x) <= gauss x / 2.
Proof.
  intros x X. rewrite Phi_sym, Phi_gint. destruct pi2 as [P2 S2]. pose proof (gaussian x) as G. destruct (grest_bounds x) as [_ B]. destruct (gint_range x) as [_ U]. set (s := sqrt (2 * PI)) in *.
  assert (I0 : 0 <= gint x).
  { unfold gint. apply (RInt_ge_0 gauss 0 x X). - apply gauss_int. - intros. unfold gauss. left. apply exp_pos. }
  assert (G0 : 0 < gauss x) by (unfold gauss; apply exp_pos). set (q := gint x / (s / 2)).
  assert (Q0 : 0 <= q <= 1). { unfold q. split; [apply Rmult_le_pos; [lra|left; apply Rinv_0_lt_compat; lra]|]. apply Rmult_le_reg_r with (s / 2); [lra|]. unfold Rdiv at 1. rewrite Rmult_assoc, Rinv_l by lra. lra. }
  assert (QQ : q * q = 1 - grest x / (PI / 2)).
  { pose proof PI_RGT_0. unfold q. replace (gint x / (s / 2) * (gint x / (s / 2))) with (gint x * gint x / (s * s / 4)) by (field; lra). rewrite S2. replace (gint x * gint x) with (PI / 2 - grest x) by lra. field. lra. }
  assert (R1 : grest x / (PI / 2) <= gauss x). { pose proof PI_RGT_0. apply Rmult_le_reg_r with (PI / 2); [lra|]. unfold Rdiv at 1. rewrite Rmult_assoc, Rinv_l by lra. lra. }
  assert (QS : q * q <= q) by (rewrite <- (Rmult_1_r q) at 3; apply Rmult_le_compat_l; lra).
  replace (gint x / s) with (q / 2) by (unfold q; field; lra). lra.
Qed.
Lemma gauss_small : forall e, 0 < e -> exists X, 0 < X /\ forall x, X <= x -> gauss x <= e.
Proof.
  intros e E. exists (2 / e + 2). assert (P : 0 < 2 / e) by (apply Rdiv_lt_0_compat; lra). split; [lra|]. intros x Hx. unfold gauss. rewrite exp_Ropp.
  rewrite <- (Rinv_inv e). apply Rinv_le_contravar; [apply Rinv_0_lt_compat; exact E|]. pose proof (exp_ineq1_le (x * x / 2)) as Q.
  assert ((2 / e) * 2 <= x * x) by (apply Rmult_le_compat; lra). assert (2 / e * 2 / 2 = 2 * / e) by (unfold Rdiv; field; lra). assert (0 < / e) by (apply Rinv_0_lt_compat; exact E). lra.
Qed.
Lemma Phi_low : forall e, 0 < e -> exists X, forall x, x <= X -> Phi x <= e.
Proof.
  intros e E. destruct (gauss_small (2 * e) ltac:(lra)) as (X & PX & HX). exists (- X). intros x Hx. pose proof (tail (- x) ltac:(lra)) as T. rewrite Ropp_involutive in T. pose proof (HX (- x) ltac:(lra)). lra.
Qed.
Lemma Phi_high : forall e, 0 < e -> exists X, forall x, X <= x -> 1 - e <= Phi x.
Proof. intros e E. destruct (Phi_low e E) as (X & HX). exists (- X). intros x Hx. pose proof (HX (- x) ltac:(lra)) as T. rewrite Phi_sym in T. lra. Qed.

Section Formula.
Context (F K : R) (PF : 0 < F) (PK : 0 < K).
Let y := ln (F / K).
Lemma ratio_pos : 0 < F / K. Proof using PF PK. apply Rdiv_lt_0_compat; assumption. Qed.
(** F phi(d1) = K phi(d2) *)
Lemma balance : forall s, 0 < s -> F * phi (y / s + s / 2) = K * phi (y / s - s / 2).
Proof using PF PK.
  intros s P. unfold phi. replace (- ((y / s + s / 2) * (y / s + s / 2) / 2)) with (- ((y / s - s / 2) * (y / s - s / 2) / 2) + - y) by (field; lra).
  rewrite exp_plus, (exp_Ropp y). assert (EY : exp y = F / K) by (apply exp_ln; apply ratio_pos). rewrite EY. destruct pi2 as [P2 _]. field. lra.
Qed.
Definition callv (s : R) : R := F * Phi (y / s + s / 2) - K * Phi (y / s - s / 2).
Lemma vega : forall s, 0 < s -> is_derive callv s (F * phi (y / s + s / 2)).
Proof using PF PK.
  intros s P. unfold callv. pose proof (balance s P) as BL. evar_last.
  - apply (is_derive_minus (fun s => F * Phi (y / s + s / 2)) (fun s => K * Phi (y / s - s / 2))).
    + apply is_derive_scal. apply (is_derive_comp Phi (fun s => y / s + s / 2)); [apply Phi_derive|]. evar_last; [auto_derive; [lra|reflexivity]|reflexivity].
    + apply is_derive_scal. apply (is_derive_comp Phi (fun s => y / s - s / 2)); [apply Phi_derive|]. evar_last; [auto_derive; [lra|reflexivity]|reflexivity].
  - unfold minus, plus, opp, scal; simpl. unfold mult; simpl. inR. set (p := phi (y / s + s / 2)) in *. set (q := phi (y / s - s / 2)) in *. clearbody p q. clearbody y.
    assert (Q : q = F * p / K) by (apply Rmult_eq_reg_l with K; [rewrite <- BL; field; lra|lra]). rewrite Q. field. lra.
Qed.
Lemma grows : forall a b, 0 < a < b -> callv a < callv b.
Proof using PF PK.
  intros a b [A L]. destruct (MVT_gen callv a b (fun s => F * phi (y / s + s / 2))) as (z & Z & Q).
  - intros s Hs. rewrite Rmin_left in Hs by lra. apply vega. lra.
  - intros s Hs. rewrite Rmin_left in Hs by lra. apply derivable_continuous_pt. eexists. apply is_derive_Reals. apply vega. lra.
  - pose proof (phi_max (y / z + z / 2)) as [P _]. assert (0 < F * phi (y / z + z / 2) * (b - a)) by (apply Rmult_lt_0_compat; [apply Rmult_lt_0_compat|]; lra). lra.
Qed.
Lemma call_upper : forall s, callv s < F.
Proof using PF PK.
  intro s. unfold callv. pose proof (Phi_range (y / s + s / 2)). pose proof (Phi_range (y / s - s / 2)). assert (F * Phi (y / s + s / 2) < F * 1) by (apply Rmult_lt_compat_l; lra). assert (0 < K * Phi (y / s - s / 2)) by (apply Rmult_lt_0_compat; lra). lra.
Qed.
Lemma call_lower : forall s, 0 < s -> Rmax (F - K) 0 < callv s.
Proof using PF PK.
  intros s P. assert (W : forall b, (forall e, 0 < e -> exists s0, 0 < s0 < s / 2 /\ b - e <= callv s0) -> b < callv s).
  { intros b HB. assert (b <= callv (s / 2)). { apply Rnot_lt_le. intro Q. destruct (HB ((b - callv (s / 2)) / 2) ltac:(lra)) as (s0 & S0 & H0). pose proof (grows s0 (s / 2) ltac:(lra)). lra. } pose proof (grows (s / 2) s ltac:(lra)). lra. }
  destruct (Rtotal_order F K) as [L|[E|L]].
  - rewrite Rmax_right by lra. apply W. intros e E. assert (Y : y < 0). { unfold y. rewrite <- ln_1. apply ln_increasing; [apply ratio_pos|]. apply Rmult_lt_reg_r with K; [exact PK|]. unfold Rdiv. rewrite Rmult_assoc, Rinv_l by lra. lra. }
    destruct (Phi_low (e / K) ltac:(apply Rdiv_lt_0_compat; lra)) as (X & HX). set (M := Rabs X + 1). assert (M1 : 1 <= M) by (unfold M; pose proof (Rabs_pos X); lra).
    set (s0 := Rmin (s / 4) (- y / M)). assert (Q1 : 0 < - y / M) by (apply Rdiv_lt_0_compat; lra). assert (Q2 : 0 < s0) by (unfold s0; apply Rmin_pos; lra).
    assert (Q3 : s0 <= s / 4) by apply Rmin_l. assert (Q4 : s0 <= - y / M) by apply Rmin_r. exists s0. split; [lra|].
    assert (Q5 : M <= - y / s0). { apply Rmult_le_reg_r with s0; [exact Q2|]. unfold Rdiv. rewrite Rmult_assoc, Rinv_l by lra. rewrite Rmult_1_r. apply Rmult_le_reg_r with (/ M); [apply Rinv_0_lt_compat; lra|]. replace (M * s0 * / M) with s0 by (field; lra). exact Q4. }
    pose proof (HX (y / s0 - s0 / 2)) as T. assert (y / s0 = - (- y / s0)) by (field; lra). assert (- X <= Rabs X) by (rewrite <- Rabs_Ropp; apply Rle_abs). specialize (T ltac:(unfold M in Q5; lra)).
    assert (K * Phi (y / s0 - s0 / 2) <= e). { apply Rle_trans with (K * (e / K)); [apply Rmult_le_compat_l; lra|]. right. field. lra. }
    unfold callv. pose proof (Phi_range (y / s0 + s0 / 2)). assert (0 < F * Phi (y / s0 + s0 / 2)) by (apply Rmult_lt_0_compat; lra). lra.
  - rewrite Rmax_right by lra. unfold callv. assert (Y : y = 0). { unfold y. replace (F / K) with 1 by (rewrite E; field; lra). apply ln_1. } rewrite Y. rewrite <- E. replace (0 / s + s / 2) with (s / 2) by (field; lra). replace (0 / s - s / 2) with (- (s / 2)) by (field; lra).
    pose proof (Phi_increasing (- (s / 2)) (s / 2) ltac:(lra)). assert (F * Phi (- (s / 2)) < F * Phi (s / 2)) by (apply Rmult_lt_compat_l; lra). lra.
  - rewrite Rmax_left by lra. apply W. intros e E. assert (Y : 0 < y). { unfold y. rewrite <- ln_1. apply ln_increasing; [lra|]. apply Rmult_lt_reg_r with K; [exact PK|]. unfold Rdiv. rewrite Rmult_assoc, Rinv_l by lra. lra. }
    destruct (Phi_high (e / (F - K)) ltac:(apply Rdiv_lt_0_compat; lra)) as (X & HX). set (M := Rabs X + 1 + s). assert (M1 : 1 <= M) by (unfold M; pose proof (Rabs_pos X); lra).
    set (s0 := Rmin (s / 4) (y / M)). assert (Q1 : 0 < y / M) by (apply Rdiv_lt_0_compat; lra). assert (Q2 : 0 < s0) by (unfold s0; apply Rmin_pos; lra).
    assert (Q3 : s0 <= s / 4) by apply Rmin_l. assert (Q4 : s0 <= y / M) by apply Rmin_r. exists s0. split; [lra|].
    assert (Q5 : M <= y / s0). { apply Rmult_le_reg_r with s0; [exact Q2|]. unfold Rdiv. rewrite Rmult_assoc, Rinv_l by lra. rewrite Rmult_1_r. apply Rmult_le_reg_r with (/ M); [apply Rinv_0_lt_compat; lra|]. replace (M * s0 * / M) with s0 by (field; lra). exact Q4. }
    pose proof (HX (y / s0 - s0 / 2)) as T. pose proof (Rle_abs X). specialize (T ltac:(unfold M in Q5; lra)).
    assert ((F - K) * (1 - e / (F - K)) <= (F - K) * Phi (y / s0 - s0 / 2)) by (apply Rmult_le_compat_l; lra). replace ((F - K) * (1 - e / (F - K))) with (F - K - e) in H0 by (field; lra).
    pose proof (Phi_increasing (y / s0 - s0 / 2) (y / s0 + s0 / 2) ltac:(lra)). assert (F * Phi (y / s0 - s0 / 2) < F * Phi (y / s0 + s0 / 2)) by (apply Rmult_lt_compat_l; lra). unfold callv. lra.
Qed.
End Formula.

Theorem black_parity : forall F K s, black_value Call F K s - black_value Put F K s = F - K.
Proof. intros. unfold black_value. rewrite !Phi_sym. ring. Qed.
(** above the payoff at the forward, below the forward or the strike *)
Theorem black_bounds : forall k F K s, 0 < F -> 0 < K -> 0 < s -> payoff k F K < black_value k F K s < match k with Call => F | Put => K end.
Proof.
  intros k F K s PF PK P. pose proof (call_upper F K PF PK s) as U. pose proof (call_lower F K PF PK s P) as L. destruct k; unfold payoff.
  - split; [exact L|exact U].
  - pose proof (black_parity F K s) as Q. assert (E : black_value Call F K s = callv F K s) by reflexivity. rewrite E in Q. clear E.
    destruct (Rle_or_lt K F) as [A|A]; [rewrite Rmax_left in L by lra; rewrite Rmax_right by lra|rewrite Rmax_right in L by lra; rewrite Rmax_left by lra]; lra.
Qed.
(** more deviation, more value *)
Theorem black_grows : forall k F K a b, 0 < F -> 0 < K -> 0 < a < b -> black_value k F K a < black_value k F K b.
Proof.
  intros k F K a b PF PK L. pose proof (grows F K PF PK a b L) as G. destruct k; [exact G|].
  pose proof (black_parity F K a) as Q1. pose proof (black_parity F K b) as Q2. assert (E : forall s, black_value Call F K s = callv F K s) by reflexivity. rewrite E in Q1, Q2. lra.
Qed.
