(** QCurveExp.v -- there are functions as good as [good_exp] and [good_ln] ask:
    the exact value, rounded twice. *)
From Coq Require Import ZArith List Bool Reals Lia Lra.
From Flocq Require Import Core IEEE754.BinarySingleNaN.
From Verif Require Import Base CivilSpec FloatModel FloatFacts QInterpSpec QFloatErr QLinProps QRollProofs QCurveSpec QCurveDates QCurveFacts.
Open Scope R_scope.

Definition to_f32 (x : R) : f32 := binary_normalize 24 128 eq_refl eq_refl mode_NE (ZnearestE (x * bpow radix2 130)) (-130) false.
Lemma to_f32_value : forall x, Rabs x <= bpow radix2 126 -> finite (to_f32 x) /\ value (to_f32 x) = rnd 24 128 (IZR (ZnearestE (x * bpow radix2 130)) * bpow radix2 (-130)).
Proof.
  intros x H. unfold to_f32, finite, value. pose proof (binary_normalize_correct 24 128 eq_refl eq_refl mode_NE (ZnearestE (x * bpow radix2 130)) (-130) false) as P. cbv zeta in P.
  unfold F2R in P. cbn [Defs.Fnum Defs.Fexp] in P. fold (rnd 24 128 (IZR (ZnearestE (x * bpow radix2 130)) * bpow radix2 (-130))) in P.
  change (round radix2 (SpecFloat.fexp 24 128) (round_mode mode_NE) (IZR (ZnearestE (x * bpow radix2 130)) * bpow radix2 (-130))) with (rnd 24 128 (IZR (ZnearestE (x * bpow radix2 130)) * bpow radix2 (-130))) in P.
  rewrite Rlt_bool_true in P; [tauto|]. apply (rnd_huge 24 128). 
  pose proof (Znearest_half (fun z => negb (Z.even z)) (x * bpow radix2 130)) as N.
  set (k := IZR (ZnearestE (x * bpow radix2 130))) in *. rewrite Rabs_mult, (Rabs_pos_eq (bpow _ _)) by apply bpow_ge_0.
  assert (B : Rabs k <= bpow radix2 257).
  { replace k with (x * bpow radix2 130 - (x * bpow radix2 130 - k)) by ring. apply Rle_trans with (1 := Rabs_triang _ _). rewrite Rabs_Ropp, Rabs_mult, (Rabs_pos_eq (bpow _ _)) by apply bpow_ge_0.
    assert (Rabs x * bpow radix2 130 <= bpow radix2 256) by (change 256%Z with (126 + 130)%Z; rewrite bpow_plus; apply Rmult_le_compat_r; [apply bpow_ge_0|exact H]).
    assert (1 <= bpow radix2 256) by (change 1 with (bpow radix2 0); apply bpow_le; lia). change 257%Z with (1 + 256)%Z. rewrite bpow_plus. change (bpow radix2 1) with 2. lra. }
  apply Rle_trans with (bpow radix2 257 * bpow radix2 (-130)); [apply Rmult_le_compat_r; [apply bpow_ge_0|exact B]|]. rewrite <- bpow_plus. apply bpow_le. cbn. lia.
Qed.
Lemma to_f32_close : forall x, bpow radix2 (-100) <= Rabs x <= bpow radix2 126 -> finite (to_f32 x) /\ Rabs (value (to_f32 x) - x) <= Rabs x / 2 ^ 22.
Proof.
  intros x [L H]. destruct (to_f32_value x H) as [F V]. split; [exact F|]. rewrite V.
  pose proof (Znearest_half (fun z => negb (Z.even z)) (x * bpow radix2 130)) as N. set (k := IZR (ZnearestE (x * bpow radix2 130))) in *.
  set (q := k * bpow radix2 (-130)). assert (PB : bpow radix2 130 * bpow radix2 (-130) = 1) by (rewrite <- bpow_plus; reflexivity).
  assert (Q : Rabs (q - x) <= Rabs x * / 2 ^ 25).
  { replace (q - x) with (- ((x * bpow radix2 130 - k) * bpow radix2 (-130))) by (unfold q; replace ((x * bpow radix2 130 - k) * bpow radix2 (-130)) with (x * (bpow radix2 130 * bpow radix2 (-130)) - k * bpow radix2 (-130)) by ring; rewrite PB; ring).
    rewrite Rabs_Ropp, Rabs_mult, (Rabs_pos_eq (bpow _ _)) by apply bpow_ge_0.
    apply Rle_trans with (1 * bpow radix2 (-130)); [apply Rmult_le_compat_r; [apply bpow_ge_0|lra]|]. rewrite Rmult_1_l.
    apply Rle_trans with (bpow radix2 (-100) * / 2 ^ 25).
    - replace (/ 2 ^ 25) with (bpow radix2 (-25)) by (change (-25)%Z with (- (25))%Z; rewrite bpow_opp; f_equal; rewrite pow_IZR; reflexivity). rewrite <- bpow_plus. apply bpow_le. lia.
    - apply Rmult_le_compat_r; [|exact L]. left. apply Rinv_0_lt_compat. apply pow_lt. lra. }
  assert (P25 : 2 ^ 25 = 33554432) by (rewrite pow_IZR; reflexivity). assert (P22 : 2 ^ 22 = 4194304) by (rewrite pow_IZR; reflexivity). rewrite P25 in Q. rewrite P22.
  assert (BQ : Rabs q <= 1.001 * Rabs x /\ 0.999 * Rabs x <= Rabs q).
  { pose proof (Rabs_triang_inv q x). pose proof (Rabs_triang_inv x q) as T. rewrite (Rabs_minus_sym x q) in T. pose proof (Rabs_pos x). lra. }
  assert (SM : small <= Rabs q).
  { apply Rle_trans with (2 := proj2 BQ). apply Rle_trans with (0.5 * bpow radix2 (-100)); [|pose proof (bpow_gt_0 radix2 (-100)); lra].
    unfold small. replace 0.5 with (bpow radix2 (-1)) by (cbn; lra). rewrite <- bpow_plus. apply bpow_le. lia. }
  destruct (rnd_rel q SM) as (d & D & E). rewrite E. unfold e24 in D.
  replace (q * (1 + d) - x) with (q * d + (q - x)) by ring. apply Rle_trans with (1 := Rabs_triang _ _). rewrite Rabs_mult.
  assert (Rabs q * Rabs d <= 1.001 * Rabs x * / 16777216) by (apply Rmult_le_compat; try apply Rabs_pos; lra). pose proof (Rabs_pos x). lra.
Qed.
Definition an_exp (x : f32) : f32 := to_f32 (exp (value x)).
Definition an_ln (x : f32) : f32 := to_f32 (ln (value x)).
Lemma bpow_exp : forall x, Rabs x <= 64 -> bpow radix2 (-100) <= exp x <= bpow radix2 100.
Proof.
  assert (A : forall x, x <= 64 -> exp x <= bpow radix2 100).
  { intros x H. apply Rle_trans with (exp 64); [destruct H as [H| ->]; [left; apply exp_increasing; exact H|right; reflexivity]|].
    assert (E : exp 64 = (exp 1) ^ 64).
    { rewrite <- (Rpower_pow 64 (exp 1)) by apply exp_pos. unfold Rpower. rewrite ln_exp. f_equal. rewrite INR_IZR_INZ. cbn. lra. }
    rewrite E. apply Rle_trans with (2.9 ^ 64).
    - apply pow_incr. split; [left; apply exp_pos|].
      assert (Q : exp 1 <= 2.9); [|exact Q].
      assert (E5 : exp 1 = exp (/ 10) ^ 10).
      { rewrite <- (Rpower_pow 10 (exp (/ 10))) by apply exp_pos. unfold Rpower. rewrite ln_exp. f_equal. cbn. lra. }
      assert (B : exp (/ 10) <= 10 / 9).
      { pose proof (exp_ineq1_le (- / 10)) as I. rewrite exp_Ropp in I. pose proof (exp_pos (/ 10)) as P. apply Rmult_le_reg_r with (/ exp (/ 10)); [apply Rinv_0_lt_compat; exact P|]. rewrite Rinv_r by lra. lra. }
      rewrite E5. apply Rle_trans with ((10 / 9) ^ 10); [apply pow_incr; split; [left; apply exp_pos|exact B]|]. 
      lra.
    - rewrite <- (IZR_Zpower radix2 100) by lia. change (IZR (radix2 ^ 100)) with 1267650600228229401496703205376. lra. }
  intros x H. apply Rabs_le_inv in H. split; [|apply A; lra]. change (-100)%Z with (- (100))%Z. rewrite bpow_opp. replace x with (- - x) by ring. rewrite exp_Ropp. apply Rinv_le; [apply exp_pos|]. apply A. lra.
Qed.
Lemma an_exp_good : good_exp an_exp.
Proof.
  split.
  - intros x F Z. unfold an_exp. rewrite Z, exp_0. split; [apply to_f32_value; rewrite Rabs_R1; change 1 with (bpow radix2 0); apply bpow_le; lia|].
    rewrite (proj2 (to_f32_value 1 ltac:(rewrite Rabs_R1; change 1 with (bpow radix2 0); apply bpow_le; lia))). rewrite Rmult_1_l.
    rewrite <- (IZR_Zpower radix2 130) by lia. rewrite (@Zrnd_IZR ZnearestE _), (IZR_Zpower radix2 130), <- bpow_plus by lia. change (bpow radix2 (130 + -130)) with (IZR 1). apply (rnd_int 24 128). apply Z.leb_le. reflexivity.
  - intros x F B. unfold an_exp. pose proof (bpow_exp _ B) as [L U]. pose proof (exp_pos (value x)) as P.
    rewrite <- (Rabs_pos_eq (exp (value x))) at 4 by lra. apply to_f32_close. rewrite Rabs_pos_eq by lra. split; [exact L|]. apply Rle_trans with (1 := U). apply bpow_le. lia.
Qed.

Lemma exp_le_inv' : forall x y, exp x <= exp y -> x <= y.
Proof. intros x y H. destruct (Rle_or_lt x y) as [G|G]; [exact G|]. pose proof (exp_increasing _ _ G). lra. Qed.
Lemma ln_far : forall x : f32, finite x -> 0 < value x -> value x <> 1 -> bpow radix2 (-26) <= Rabs (ln (value x)).
Proof.
  intros x F P N. destruct (Rle_or_lt 1 (value x)) as [G|G].
  - assert (B : 1 + bpow radix2 (-23) <= value x).
    { assert (L : succ radix2 (SpecFloat.fexp 24 128) 1 <= value x).
      { apply succ_le_lt; [apply FLT.FLT_exp_valid; reflexivity| | |lra].
        - change 1 with (IZR 1). apply (fmt_int 24 128). apply Z.leb_le. reflexivity.
        - apply generic_format_B2R. }
      unfold succ in L. rewrite Rle_bool_true in L by lra. unfold ulp in L. rewrite Req_bool_false in L by lra. unfold cexp in L. change 1 with (bpow radix2 0) in L at 2. rewrite mag_bpow in L. exact L. }
    assert (LN : ln (1 + bpow radix2 (-23)) <= ln (value x)) by (destruct B as [B| ->]; [left; apply ln_increasing; [pose proof (bpow_gt_0 radix2 (-23)); lra|exact B]|right; reflexivity]).
    rewrite Rabs_pos_eq; [apply Rle_trans with (2 := LN)|].
    + set (h := bpow radix2 (-23)) in *. assert (H : 0 < h <= 1) by (split; [apply bpow_gt_0|change 1 with (bpow radix2 0); apply bpow_le; lia]).
      apply Rle_trans with (h / 2); [unfold h; replace (bpow radix2 (-23) / 2) with (bpow radix2 (-24)) by (change (-23)%Z with (-24 + 1)%Z; rewrite bpow_plus; change (bpow radix2 1) with 2; field); apply bpow_le; lia|].
      apply exp_le_inv'. rewrite exp_ln by lra. pose proof (exp_ineq1_le (- (h / 2))) as I. rewrite exp_Ropp in I. pose proof (exp_pos (h / 2)) as Q.
      apply Rmult_le_reg_r with (1 - h / 2); [lra|]. apply Rle_trans with 1; [|].
      * apply Rle_trans with (exp (h / 2) * / exp (h / 2)); [apply Rmult_le_compat_l; lra|rewrite Rinv_r; lra].
      * replace ((1 + h) * (1 - h / 2)) with (1 + h * (1 - h) / 2) by field. assert (0 <= h * (1 - h)) by (apply Rmult_le_pos; lra). lra.
    + apply Rle_trans with (2 := LN). rewrite <- ln_1. left. apply ln_increasing; [lra|]. pose proof (bpow_gt_0 radix2 (-23)). lra.
  - assert (B : value x <= 1 - bpow radix2 (-24)).
    { assert (L : value x <= pred radix2 (SpecFloat.fexp 24 128) 1).
      { apply pred_ge_gt; [apply FLT.FLT_exp_valid; reflexivity|apply generic_format_B2R| |exact G].
        change 1 with (IZR 1). apply (fmt_int 24 128). apply Z.leb_le. reflexivity. }
      change 1 with (bpow radix2 0) in L. rewrite pred_bpow in L. exact L. }
    assert (LN : ln (value x) <= - bpow radix2 (-24)).
    { apply exp_le_inv'. rewrite exp_ln by exact P. apply Rle_trans with (1 := B). pose proof (exp_ineq1_le (- bpow radix2 (-24))). lra. }
    rewrite Rabs_left1 by (pose proof (bpow_gt_0 radix2 (-24)); lra). apply Rle_trans with (bpow radix2 (-24)); [apply bpow_le; lia|lra].
Qed.
Lemma ln_near : forall x : f32, finite x -> 0 < value x -> Rabs (ln (value x)) <= bpow radix2 126.
Proof.
  assert (A : forall x, 0 < x -> ln x <= x) by (intros x P; apply exp_le_inv'; rewrite exp_ln by exact P; pose proof (exp_ineq1_le x); lra).
  intros x F P.
  assert (U : value x < bpow radix2 128) by (apply Rle_lt_trans with (1 := Rle_abs _); apply abs_B2R_lt_emax).
  assert (L : bpow radix2 (-149) <= value x).
  { destruct x as [|? | |s m e B]; try discriminate F; unfold value in *; cbn [B2R] in *; [lra|]. destruct s; unfold F2R in *; cbn [Defs.Fnum Defs.Fexp cond_Zopp Z.opp] in *.
    - exfalso. assert (IZR (Z.neg m) * bpow radix2 e < 0); [|lra]. apply Ropp_lt_cancel. rewrite Ropp_0, Ropp_mult_distr_l, <- opp_IZR. cbn. apply Rmult_lt_0_compat; [apply IZR_lt; lia|apply bpow_gt_0].
    - assert (1 <= IZR (Z.pos m)) by (apply IZR_le; lia). assert (bpow radix2 (-149) <= bpow radix2 e).
      { apply bpow_le. pose proof B as B'. unfold SpecFloat.bounded in B'. apply andb_true_iff in B'. destruct B' as [B' _]. unfold SpecFloat.canonical_mantissa in B'. apply Zeq_bool_eq in B'.
        unfold SpecFloat.fexp, SpecFloat.emin in B'. lia. }
      pose proof (bpow_gt_0 radix2 e). apply Rle_trans with (1 * bpow radix2 e); [lra|]. apply Rmult_le_compat_r; lra. }
  assert (L2 : 0 < ln 2 <= 2) by (split; [rewrite <- ln_1; apply ln_increasing; lra|apply A; lra]).
  assert (LB : forall k, ln (bpow radix2 k) = IZR k * ln 2) by (intro k; rewrite bpow_powerRZ; change (IZR radix2) with 2; rewrite powerRZ_Rpower by lra; unfold Rpower; apply ln_exp).
  assert (M : forall a b, 0 < a -> a <= b -> ln a <= ln b) by (intros a b Pa [Q| ->]; [left; apply ln_increasing; assumption|right; reflexivity]).
  pose proof (M _ _ P (Rlt_le _ _ U)) as M1. pose proof (M _ _ (bpow_gt_0 radix2 (-149)) L) as M2. rewrite LB in M1, M2.
  apply Rle_trans with 300; [apply Rabs_le; lra|]. apply Rle_trans with (bpow radix2 9); [rewrite <- (IZR_Zpower radix2 9) by lia; apply IZR_le; apply Z.leb_le; reflexivity|apply bpow_le; lia].
Qed.
Lemma an_ln_good : good_ln an_ln.
Proof.
  intros x F P. unfold an_ln. destruct (Req_dec (value x) 1) as [E|N].
  - rewrite E, ln_1. assert (B : Rabs 0 <= bpow radix2 126) by (rewrite Rabs_R0; apply bpow_ge_0). destruct (to_f32_value 0 B) as [F0 V0]. split; [exact F0|].
    rewrite V0, Rmult_0_l, (@Zrnd_IZR ZnearestE _ 0), Rmult_0_l, (rnd_0 24 128) by exact p24. rewrite Rminus_diag_eq, Rabs_R0 by reflexivity. unfold Rdiv. rewrite Rmult_0_l. lra.
  - apply to_f32_close. split; [|exact (ln_near x F P)]. apply Rle_trans with (2 := ln_far x F P N). apply bpow_le. lia.
Qed.
