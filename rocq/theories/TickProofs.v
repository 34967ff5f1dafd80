(** TickProofs.v -- values of the float conversions. *)
From Coq Require Import ZArith Reals List Bool Lia Lra Psatz.
From Flocq Require Import Core Relative.
From Flocq Require Import IEEE754.BinarySingleNaN.
From Verif Require Import Base KrxModel FloatModel FloatFacts TickModel.
Import ListNotations.
Open Scope R_scope.

Notation rd := (rnd 53 1024).
Notation fin64 := (fin 53 1024).
Notation fx := (SpecFloat.fexp 53 1024).

#[global] Instance fx_valid64 : Valid_exp fx := FLT_exp_valid _ 53.
#[global] Instance fx_mono64 : Monotone_exp fx := FLT_exp_monotone _ 53.

Lemma huge64 : forall x, Rabs x <= IZR (2 ^ 200) -> Rabs x <= huge 1024.
Proof.
  intros x H. apply Rle_trans with (1 := H). unfold huge.
  rewrite <- (IZR_Zpower radix2) by lia. apply IZR_le.
  change (radix_val radix2) with 2%Z. apply Z.pow_le_mono_r; lia.
Qed.

Lemma fmt_pow10 : forall k, (0 <= k <= 22)%Z -> generic_format radix2 fx (IZR (10 ^ k)).
Proof.
  intros k Hk. apply (generic_format_FLT radix2 _ 53).
  exists (Float radix2 (5 ^ k) k); cbn [Fnum Fexp].
  - unfold F2R; cbn [Fnum Fexp]. rewrite <- (IZR_Zpower radix2) by lia.
    rewrite <- mult_IZR. f_equal. change (radix_val radix2) with 2%Z.
    rewrite <- Z.pow_mul_l. reflexivity.
  - rewrite Z.abs_eq by (apply Z.pow_nonneg; lia).
    apply Z.le_lt_trans with (5 ^ 22)%Z; [apply Z.pow_le_mono_r; lia|reflexivity].
  - unfold SpecFloat.emin. lia.
Qed.

Lemma pow10_pos : forall k, (0 <= k)%Z -> (1 <= 10 ^ k)%Z.
Proof. intros k H. assert (0 < 10 ^ k)%Z by (apply Z.pow_pos_nonneg; lia). lia. Qed.
Lemma pow10_le : forall k n, (0 <= k <= n)%Z -> (10 ^ k <= 10 ^ n)%Z.
Proof. intros. apply Z.pow_le_mono_r; lia. Qed.

Lemma fin_Z : forall n, (Z.abs n <= 2 ^ 64)%Z -> fin64 (gof_Z n) (rd (IZR n)).
Proof.
  intros n H. apply fin_of_Z, huge64. rewrite <- abs_IZR. apply IZR_le.
  apply Z.le_trans with (1 := H). apply Z.pow_le_mono_r; lia.
Qed.

Lemma fin_powi10 : forall k, (0 <= k <= 19)%Z -> fin64 (powi10 k) (IZR (10 ^ k)).
Proof.
  intros k Hk. unfold powi10. destruct (Z.leb_spec 0 k); [|lia].
  rewrite <- (rnd_fix 53 1024 (IZR (10 ^ k))) by (apply fmt_pow10; lia).
  apply fin_Z. pose proof (pow10_pos k). pose proof (pow10_le k 19).
  assert (10 ^ 19 <= 2 ^ 64)%Z by (apply Z.leb_le; reflexivity). lia.
Qed.

Lemma rd_2_64 : forall n, (Z.abs n <= 2 ^ 64)%Z -> Rabs (rd (IZR n)) <= IZR (2 ^ 64).
Proof.
  intros n H. change (2 ^ 64)%Z with (radix2 ^ 64)%Z. rewrite IZR_Zpower by lia.
  apply rnd_bpow_le; try typeclasses eauto; [unfold SpecFloat.emin; lia|].
  rewrite <- (IZR_Zpower radix2) by lia. rewrite <- abs_IZR. apply IZR_le, H.
Qed.

(** The exact quotient of two roundings. *)
Lemma fin_ratio : forall n k, (Z.abs n <= 2 ^ 64)%Z -> (0 <= k <= 19)%Z ->
  fin64 (gdiv (gof_Z n) (powi10 k)) (rd (rd (IZR n) / IZR (10 ^ k))).
Proof.
  intros n k Hn Hk. pose proof (pow10_pos k ltac:(lia)) as Hp. apply IZR_le in Hp.
  apply fin_div; [apply fin_Z, Hn|apply fin_powi10, Hk|lra|].
  apply huge64. unfold Rdiv. rewrite Rabs_mult, (Rabs_pos_eq (/ _)).
  - apply Rle_trans with (IZR (2 ^ 64) * 1).
    + apply Rmult_le_compat; [apply Rabs_pos| |apply rd_2_64, Hn|].
      * left. apply Rinv_0_lt_compat. lra.
      * rewrite <- Rinv_1. apply Rinv_le; lra.
    + rewrite Rmult_1_r. apply IZR_le. apply Z.pow_le_mono_r; lia.
  - left. apply Rinv_0_lt_compat. lra.
Qed.

(** The exponent a conversion divides by. *)
Definition conv_exp (c : float_conv) : Z :=
  (match nc_norm c with Some n => n | None => 0 end + nc_dec c)%Z.

(** What [normalized_i64] computes. *)
Definition nval (c : float_conv) (v : Z) : R :=
  let d := (10 ^ conv_exp c)%Z in
  match nc_norm c with
  | Some _ => rd (rd (IZR (Z.quot v d)) + rd (rd (IZR (Z.rem v d)) / IZR d))
  | None => rd (rd (IZR v) / IZR d)
  end.

Lemma quot_bound : forall v d, (1 <= d)%Z -> (Z.abs (Z.quot v d) <= Z.abs v)%Z.
Proof.
  intros v d H. rewrite <- Z.quot_abs by lia. rewrite (Z.abs_eq d) by lia.
  apply Z.quot_le_upper_bound; [lia|]. nia.
Qed.
Lemma rem_bound : forall v d, (1 <= d)%Z -> (Z.abs (Z.rem v d) < d)%Z.
Proof. intros v d H. pose proof (Z.rem_bound_abs v d). lia. Qed.
Lemma rem_bound' : forall v d, (1 <= d)%Z -> (Z.abs (Z.rem v d) <= Z.abs v)%Z.
Proof.
  intros v d H. rewrite <- Z.rem_abs by lia. rewrite (Z.abs_eq d) by lia.
  apply Z.rem_le; lia.
Qed.

Lemma rd_rem_le1 : forall v k, (0 <= k <= 19)%Z ->
  Rabs (rd (rd (IZR (Z.rem v (10 ^ k))) / IZR (10 ^ k))) <= 1.
Proof.
  intros v k Hk. pose proof (pow10_pos k ltac:(lia)) as Hp.
  pose proof (rem_bound v _ Hp) as Hr.
  assert (Hd : 0 < IZR (10 ^ k)) by (apply IZR_lt; lia).
  rewrite rnd_abs by typeclasses eauto.
  rewrite <- (rnd_int 53 1024 1 ltac:(cbn; lia)).
  apply rnd_le; try typeclasses eauto. unfold Rdiv. rewrite Rabs_mult, (Rabs_pos_eq (/ _)).
  - apply Rmult_le_reg_r with (IZR (10 ^ k)); [exact Hd|].
    rewrite Rmult_assoc, Rinv_l, Rmult_1_r, Rmult_1_l by lra.
    rewrite rnd_abs by typeclasses eauto.
    rewrite <- (rnd_fix 53 1024 (IZR (10 ^ k))) by (apply fmt_pow10; lia).
    apply rnd_le; try typeclasses eauto. rewrite <- abs_IZR. apply IZR_le. lia.
  - left. now apply Rinv_0_lt_compat.
Qed.

Lemma fin_parts : forall v k, (Z.abs v <= 2 ^ 64)%Z -> (0 <= k <= 19)%Z ->
  fin64 (gadd (gof_Z (Z.quot v (10 ^ k))) (gdiv (gof_Z (Z.rem v (10 ^ k))) (powi10 k)))
    (rd (rd (IZR (Z.quot v (10 ^ k))) + rd (rd (IZR (Z.rem v (10 ^ k))) / IZR (10 ^ k)))).
Proof.
  intros v k Hv Hk. pose proof (pow10_pos k ltac:(lia)) as Hp.
  pose proof (quot_bound v _ Hp). pose proof (rem_bound' v _ Hp).
  apply fin_add; [apply fin_Z; lia|apply fin_ratio; lia|].
  apply huge64. apply Rle_trans with (1 := Rabs_triang _ _).
  pose proof (rd_rem_le1 v k Hk). pose proof (rd_2_64 (Z.quot v (10 ^ k)) ltac:(lia)).
  apply Rle_trans with (IZR (2 ^ 64) + 1); [lra|]. rewrite <- plus_IZR.
  apply IZR_le. apply Z.leb_le. reflexivity.
Qed.

Lemma rem_eq : forall v d, (d <> 0)%Z -> (v - Z.quot v d * d = Z.rem v d)%Z.
Proof. intros v d H. pose proof (Z.quot_rem' v d). lia. Qed.

Theorem normalized_i64_value : forall m c v, (0 <= nc_dec c)%Z -> (0 <= conv_exp c <= 18)%Z ->
  is_i64 v -> exists x, normalized_i64 m c v = Ret x /\ fin64 x (nval c v).
Proof.
  intros m c v Hd Hk Hv. unfold normalized_i64, nval. unfold is_i64, i64_min, i64_max in Hv.
  assert (Hv2 : (Z.abs v <= 2 ^ 64)%Z) by lia.
  unfold conv_exp in *. destruct (nc_norm c) as [n|].
  - set (k := (n + nc_dec c)%Z) in *. unfold pow10_i64.
    rewrite Z.mod_small by lia. destruct (Z.leb_spec k 18); [|lia]. cbn [obind].
    pose proof (pow10_pos k ltac:(lia)). unfold div_rem.
    destruct (Z.eqb_spec (10 ^ k) 0); [lia|]. cbn [obind]. eexists; split; [reflexivity|].
    rewrite rem_eq by lia. apply fin_parts; lia.
  - cbn [Z.add] in *. unfold to_f64. eexists; split; [reflexivity|]. apply fin_ratio; lia.
Qed.

Theorem normalized_u64_value : forall m c v, (0 <= nc_dec c)%Z -> (0 <= conv_exp c <= 18)%Z ->
  is_u64 v -> exists x, normalized_u64 m c v = Ret x /\ fin64 x (nval c v).
Proof.
  intros m c v Hd Hk Hv. unfold normalized_u64, nval. unfold is_u64, two64 in Hv.
  assert (Hv2 : (Z.abs v <= 2 ^ 64)%Z) by lia.
  unfold conv_exp in *. destruct (nc_norm c) as [n|].
  - set (k := (n + nc_dec c)%Z) in *. unfold pow10_u64.
    rewrite Z.mod_small by lia. destruct (Z.leb_spec k 19); [|lia]. cbn [obind].
    pose proof (pow10_pos k ltac:(lia)). unfold div_rem.
    destruct (Z.eqb_spec (10 ^ k) 0); [lia|]. cbn [obind]. eexists; split; [reflexivity|].
    rewrite rem_eq by lia. apply fin_parts; lia.
  - cbn [Z.add] in *. unfold to_f64. eexists; split; [reflexivity|]. apply fin_ratio; lia.
Qed.

(** ** Order *)

Lemma nval_opp : forall c v, nval c (- v) = - nval c v.
Proof.
  intros c v. unfold nval. destruct (nc_norm c).
  - set (d := (10 ^ conv_exp c)%Z). destruct (Z.eq_dec d 0) as [->|Hd].
    + rewrite !Zquot.Zquot_0_r, !Zquot.Zrem_0_r. unfold Rdiv. rewrite Rinv_0, !Rmult_0_r.
      rewrite !rnd_0 by typeclasses eauto. rewrite Rplus_0_r, rnd_0 by typeclasses eauto. lra.
    + rewrite Z.quot_opp_l, Z.rem_opp_l by assumption. rewrite !opp_IZR, !rnd_opp.
      rewrite !Ropp_div, !rnd_opp.
      rewrite <- Ropp_plus_distr, rnd_opp. reflexivity.
  - rewrite opp_IZR, rnd_opp, Ropp_div, rnd_opp. reflexivity.
Qed.

Lemma rd_absorb : forall y t, generic_format radix2 fx y -> IZR (2 ^ 53) <= y -> 0 <= t < 1 ->
  rd (y + t) <= y.
Proof.
  intros y t Fy Hy Ht. unfold rnd. apply round_N_le_midp; [typeclasses eauto|exact Fy|].
  assert (0 < y) by (apply Rlt_le_trans with (2 := Hy); apply IZR_lt; reflexivity).
  rewrite succ_eq_pos by lra.
  assert (bpow radix2 1 <= ulp radix2 fx y).
  { rewrite ulp_neq_0 by lra. apply bpow_le. unfold cexp.
    assert (54 <= mag radix2 y)%Z.
    { apply mag_ge_bpow. rewrite Rabs_pos_eq by lra. change (54 - 1)%Z with 53%Z.
      rewrite <- (IZR_Zpower radix2) by lia. exact Hy. }
    change (1 <= FLT_exp (SpecFloat.emin 53 1024) 53 (mag radix2 y))%Z. unfold FLT_exp. lia. }
  change (bpow radix2 1) with 2 in *. lra.
Qed.

Lemma nval_nonneg : forall c v, (0 <= conv_exp c)%Z -> (0 <= v)%Z -> 0 <= nval c v.
Proof.
  intros c v Hk Hv. unfold nval. pose proof (pow10_pos _ Hk) as Hp.
  assert (Hd : 0 < IZR (10 ^ conv_exp c)) by (apply IZR_lt; lia).
  assert (Hi : 0 < / IZR (10 ^ conv_exp c)) by now apply Rinv_0_lt_compat.
  destruct (nc_norm c).
  - apply rnd_nonneg; try typeclasses eauto. apply Rplus_le_le_0_compat.
    + apply rnd_nonneg; try typeclasses eauto. apply IZR_le. apply Z.quot_pos; lia.
    + apply rnd_nonneg; try typeclasses eauto. apply Rmult_le_pos; [|lra].
      apply rnd_nonneg; try typeclasses eauto. apply IZR_le. apply Z.rem_nonneg; lia.
  - apply rnd_nonneg; try typeclasses eauto. apply Rmult_le_pos; [|lra].
    apply rnd_nonneg; try typeclasses eauto. apply IZR_le; lia.
Qed.

Lemma nval_mono_nonneg : forall c v w, (0 <= conv_exp c <= 18)%Z ->
  (0 <= v <= w)%Z -> (w < 2 ^ 64)%Z -> nval c v <= nval c w.
Proof.
  intros c v w Hk Hvw Hw. unfold nval. pose proof (pow10_pos (conv_exp c) ltac:(lia)) as Hp.
  set (k := conv_exp c) in *.
  assert (Hd : 0 < IZR (10 ^ k)) by (apply IZR_lt; lia).
  assert (Hi : 0 < / IZR (10 ^ k)) by now apply Rinv_0_lt_compat.
  destruct (nc_norm c).
  - assert (Hq : (0 <= Z.quot v (10 ^ k) <= Z.quot w (10 ^ k))%Z).
    { split; [apply Z.quot_pos; lia|apply Z.quot_le_mono; lia]. }
    pose proof (Z.quot_rem' v (10 ^ k)) as Ev. pose proof (Z.quot_rem' w (10 ^ k)) as Ew.
    pose proof (Z.rem_bound_pos v (10 ^ k) ltac:(lia) ltac:(lia)) as Rv.
    pose proof (Z.rem_bound_pos w (10 ^ k) ltac:(lia) ltac:(lia)) as Rw.
    assert (Tw : 0 <= rd (rd (IZR (Z.rem w (10 ^ k))) / IZR (10 ^ k))).
    { apply rnd_nonneg; try typeclasses eauto. apply Rmult_le_pos; [|lra].
      apply rnd_nonneg; try typeclasses eauto. apply IZR_le; lia. }
    assert (Tv : 0 <= rd (rd (IZR (Z.rem v (10 ^ k))) / IZR (10 ^ k))).
    { apply rnd_nonneg; try typeclasses eauto. apply Rmult_le_pos; [|lra].
      apply rnd_nonneg; try typeclasses eauto. apply IZR_le; lia. }
    destruct (Z.eq_dec (Z.quot v (10 ^ k)) (Z.quot w (10 ^ k))) as [E|NE].
    + rewrite E in *. apply rnd_le; try typeclasses eauto. apply Rplus_le_compat_l.
      apply rnd_le; try typeclasses eauto. apply Rmult_le_compat_r; [lra|].
      apply rnd_le; try typeclasses eauto. apply IZR_le. lia.
    + assert (Hq1 : (Z.quot v (10 ^ k) + 1 <= Z.quot w (10 ^ k))%Z) by lia.
      apply Rle_trans with (rd (IZR (Z.quot w (10 ^ k)))).
      2:{ rewrite <- (rnd_rnd 53 1024 (IZR (Z.quot w _))) at 1. apply rnd_le; try typeclasses eauto. lra. }
      destruct (Z_lt_le_dec (Z.quot v (10 ^ k)) (2 ^ 53)) as [Hs|Hb].
      * rewrite (rnd_int 53 1024 (Z.quot v (10 ^ k))) by lia. apply rnd_le; try typeclasses eauto.
        pose proof (rd_rem_le1 v k ltac:(lia)) as H1. rewrite Rabs_pos_eq in H1 by assumption.
        apply Rle_trans with (IZR (Z.quot v (10 ^ k)) + 1); [lra|]. rewrite <- plus_IZR. now apply IZR_le.
      * apply Rle_trans with (rd (IZR (Z.quot v (10 ^ k)))).
        2:{ apply rnd_le; try typeclasses eauto. apply IZR_le; lia. }
        apply rd_absorb.
        -- apply generic_format_round; typeclasses eauto.
        -- rewrite <- (rnd_int 53 1024 (2 ^ 53)) by lia. apply rnd_le; try typeclasses eauto. now apply IZR_le.
        -- split; [exact Tv|].
           assert (Hd10 : (10 ^ k <= 2 ^ 11)%Z).
           { assert (10 ^ k * 2 ^ 53 <= 10 ^ k * Z.quot v (10 ^ k))%Z by (apply Z.mul_le_mono_nonneg_l; lia).
             change (2 ^ 64)%Z with (2 ^ 11 * 2 ^ 53)%Z in Hw. 
             assert (10 ^ k * 2 ^ 53 < 2 ^ 11 * 2 ^ 53)%Z by lia. lia. }
           rewrite (rnd_int 53 1024 (Z.rem v (10 ^ k))) by lia.
           assert (Hle : IZR (Z.rem v (10 ^ k)) / IZR (10 ^ k) <= 1 - / IZR (2 ^ 11)).
           { apply Rmult_le_reg_r with (IZR (10 ^ k)); [exact Hd|].
             unfold Rdiv. rewrite Rmult_assoc, Rinv_l, Rmult_1_r by lra.
             rewrite Rmult_minus_distr_r, Rmult_1_l.
             apply Rle_trans with (IZR (10 ^ k) - 1).
             - rewrite <- minus_IZR. apply IZR_le. lia.
             - apply Rplus_le_compat_l. apply Ropp_le_contravar.
               apply Rmult_le_reg_l with (IZR (2 ^ 11)); [apply IZR_lt; lia|].
               rewrite <- Rmult_assoc, Rinv_r, Rmult_1_l, Rmult_1_r by (apply IZR_neq; lia).
               now apply IZR_le. }
           assert (Hf : rd (1 - / IZR (2 ^ 11)) = 1 - / IZR (2 ^ 11)).
           { apply rnd_fix; try typeclasses eauto. apply (generic_format_FLT radix2 _ 53).
             exists (Float radix2 2047 (-11)); cbn [Fnum Fexp].
             - unfold F2R; cbn [Fnum Fexp]. change (bpow radix2 (-11)) with (/ IZR (2 ^ 11)).
               change (2 ^ 11)%Z with 2048%Z. lra.
             - reflexivity.
             - unfold SpecFloat.emin. lia. }
           apply Rle_lt_trans with (rd (1 - / IZR (2 ^ 11))).
           ++ apply rnd_le; try typeclasses eauto. exact Hle.
           ++ rewrite Hf. assert (0 < / IZR (2 ^ 11)) by (apply Rinv_0_lt_compat, IZR_lt; lia). lra.
  - apply rnd_le; try typeclasses eauto. apply Rmult_le_compat_r; [lra|].
    apply rnd_le; try typeclasses eauto. apply IZR_le; lia.
Qed.

Theorem nval_mono : forall c v w, (0 <= conv_exp c <= 18)%Z ->
  (Z.abs v < 2 ^ 64)%Z -> (Z.abs w < 2 ^ 64)%Z -> (v <= w)%Z -> nval c v <= nval c w.
Proof.
  intros c v w Hk Hv Hw H.
  destruct (Z_le_gt_dec 0 v).
  - apply nval_mono_nonneg; lia.
  - destruct (Z_le_gt_dec 0 w).
    + apply Rle_trans with 0; [|apply nval_nonneg; lia].
      replace v with (- (- v))%Z by lia. rewrite nval_opp.
      pose proof (nval_nonneg c (- v) ltac:(lia) ltac:(lia)). lra.
    + replace v with (- (- v))%Z by lia. replace w with (- (- w))%Z by lia.
      rewrite (nval_opp c (- v)), (nval_opp c (- w)). apply Ropp_le_contravar. apply nval_mono_nonneg; lia.
Qed.

(** The sum before the last rounding. *)
Definition nsum (c : float_conv) (v : Z) : R :=
  let d := (10 ^ conv_exp c)%Z in
  match nc_norm c with
  | Some _ => rd (IZR (Z.quot v d)) + rd (rd (IZR (Z.rem v d)) / IZR d)
  | None => rd (IZR v) / IZR d
  end.
Lemma nval_nsum : forall c v, nval c v = rd (nsum c v).
Proof. intros. unfold nval, nsum. destruct (nc_norm c); reflexivity. Qed.

Lemma ratio_split : forall v d, (1 <= d)%Z ->
  IZR v / IZR d = IZR (Z.quot v d) + IZR (Z.rem v d) / IZR d.
Proof.
  intros v d H. pose proof (Z.quot_rem' v d) as E. rewrite E at 1.
  rewrite plus_IZR, mult_IZR. field. apply IZR_neq. lia.
Qed.

Lemma nsum_near : forall c v, (0 <= conv_exp c <= 18)%Z -> (Z.abs v <= 2 ^ 50)%Z ->
  Rabs (nsum c v - IZR v / IZR (10 ^ conv_exp c)) <= bpow radix2 (-54).
Proof.
  intros c v Hk Hv. unfold nsum. set (k := conv_exp c) in *.
  pose proof (pow10_pos k ltac:(lia)) as Hp.
  pose proof (quot_bound v _ Hp). pose proof (rem_bound' v _ Hp). pose proof (rem_bound v _ Hp).
  destruct (nc_norm c).
  - rewrite !(rnd_int 53 1024) by lia. rewrite (ratio_split v (10 ^ k)) by lia.
    replace (_ + _ - _) with (rd (IZR (Z.rem v (10 ^ k)) / IZR (10 ^ k)) - IZR (Z.rem v (10 ^ k)) / IZR (10 ^ k)) by lra.
    change (-54)%Z with (0 - 53 - 1)%Z. apply rnd_err; try typeclasses eauto; [unfold SpecFloat.emin; lia|].
    change (bpow radix2 0) with 1. unfold Rdiv.
    assert (Hd : 0 < IZR (10 ^ k)) by (apply IZR_lt; lia).
    rewrite Rabs_mult, (Rabs_pos_eq (/ _)) by (left; now apply Rinv_0_lt_compat).
    apply Rmult_le_reg_r with (IZR (10 ^ k)); [exact Hd|].
    rewrite Rmult_assoc, Rinv_l, Rmult_1_r, Rmult_1_l by lra. rewrite <- abs_IZR. apply IZR_le. lia.
  - rewrite (rnd_int 53 1024) by lia. rewrite Rminus_eq_0, Rabs_R0. apply bpow_ge_0.
Qed.

Theorem nval_strict : forall c v w, (0 <= conv_exp c <= 15)%Z ->
  (Z.abs v <= 2 ^ 50)%Z -> (Z.abs w <= 2 ^ 50)%Z -> (v < w)%Z -> nval c v < nval c w.
Proof.
  intros c v w Hk Hv Hw H. rewrite !nval_nsum.
  pose proof (nsum_near c v ltac:(lia) Hv) as Nv. pose proof (nsum_near c w ltac:(lia) Hw) as Nw.
  set (d := (10 ^ conv_exp c)%Z) in *.
  pose proof (pow10_pos (conv_exp c) ltac:(lia)) as Hp. fold d in Hp.
  set (l := Z.log2 d).
  destruct (Z.log2_spec d ltac:(lia)) as [L1 L2]. fold l in L1, L2.
  assert (Hl : (0 <= l <= 49)%Z).
  { split; [apply Z.log2_nonneg|]. unfold l. change 49%Z with (Z.log2 (10 ^ 15)).
    apply Z.log2_le_mono. unfold d. apply pow10_le. lia. }
  assert (Hd : 0 < IZR d) by (apply IZR_lt; lia).
  assert (Hid : 0 < / IZR d) by now apply Rinv_0_lt_compat.
  assert (I1 : / IZR d <= bpow radix2 (- l)).
  { rewrite bpow_opp. apply Rinv_le; [apply bpow_gt_0|]. rewrite <- (IZR_Zpower radix2) by lia. now apply IZR_le. }
  assert (I2 : 2 * bpow radix2 (- l - 2) < / IZR d).
  { change 2 with (bpow radix2 1). rewrite <- bpow_plus. replace (1 + (- l - 2))%Z with (- (l + 1))%Z by lia.
    rewrite bpow_opp. apply Rinv_lt; [exact Hd|].
    rewrite <- (IZR_Zpower radix2) by lia. apply IZR_lt. replace (l + 1)%Z with (Z.succ l) by lia. exact L2. }
  assert (B54 : 2 * bpow radix2 (-54) <= bpow radix2 (- l - 2)).
  { change 2 with (bpow radix2 1) at 1. rewrite <- bpow_plus. apply bpow_le. lia. }
  assert (P54 : 0 < bpow radix2 (-54)) by apply bpow_gt_0.
  assert (Big : bpow radix2 (50 - l) + bpow radix2 (-54) <= bpow radix2 (51 - l)).
  { replace (51 - l)%Z with ((50 - l) + 1)%Z by lia. rewrite (bpow_plus radix2 (50 - l) 1).
    change (bpow radix2 1) with 2. assert (bpow radix2 (-54) <= bpow radix2 (50 - l)) by (apply bpow_le; lia). lra. }
  assert (Bnd : forall u, (Z.abs u <= 2 ^ 50)%Z -> Rabs (IZR u / IZR d) <= bpow radix2 (50 - l)).
  { intros u Hu. unfold Rdiv. rewrite Rabs_mult, (Rabs_pos_eq (/ _)) by lra.
    replace (50 - l)%Z with (50 + - l)%Z by lia. rewrite bpow_plus.
    apply Rmult_le_compat; [apply Rabs_pos|lra| |exact I1].
    rewrite <- (IZR_Zpower radix2) by lia. rewrite <- abs_IZR. now apply IZR_le. }
  pose proof (Bnd v Hv) as Bv. pose proof (Bnd w Hw) as Bw.
  apply Rabs_le_inv in Nv. apply Rabs_le_inv in Nw. apply Rabs_le_inv in Bv. apply Rabs_le_inv in Bw.
  apply (rnd_lt 53 1024 (51 - l)); [unfold SpecFloat.emin; lia|apply Rabs_le; lra|apply Rabs_le; lra|].
  assert (Hgap : / IZR d <= IZR w / IZR d - IZR v / IZR d).
  { unfold Rdiv. rewrite <- Rmult_minus_distr_r. rewrite <- (Rmult_1_l (/ IZR d)) at 1.
    apply Rmult_le_compat_r; [lra|]. rewrite <- minus_IZR. apply (IZR_le 1). lia. }
  replace (51 - l - 53)%Z with (- l - 2)%Z by lia. lra.
Qed.

(** ** Accuracy *)

Lemma rd_rel : forall x, x = 0 \/ bpow radix2 (-1000) <= Rabs x -> Rabs (rd x - x) <= bpow radix2 (-53) * Rabs x.
Proof.
  intros x [->|H].
  - rewrite rnd_0 by typeclasses eauto. rewrite Rminus_eq_0, Rabs_R0. lra.
  - pose proof (relative_error_N_FLT radix2 (SpecFloat.emin 53 1024) 53 p53 (fun z => negb (Z.even z)) x) as R.
    apply Rle_trans with (/ 2 * bpow radix2 (- (53) + 1) * Rabs x).
    + apply R. apply Rle_trans with (2 := H). apply bpow_le. unfold SpecFloat.emin. lia.
    + apply Rmult_le_compat_r; [apply Rabs_pos|]. right. change (/2) with (bpow radix2 (-1)).
      rewrite <- bpow_plus. reflexivity.
Qed.

Lemma small_ok : forall n d, (n <> 0)%Z -> (1 <= d <= 10 ^ 19)%Z ->
  bpow radix2 (-70) <= Rabs (IZR n / IZR d).
Proof.
  intros n d Hn Hd. unfold Rdiv. rewrite Rabs_mult.
  assert (0 < IZR d) by (apply IZR_lt; lia).
  rewrite (Rabs_pos_eq (/ _)) by (left; now apply Rinv_0_lt_compat).
  rewrite <- (Rmult_1_l (bpow _ _)). apply Rmult_le_compat; [lra|apply bpow_ge_0| |].
  - rewrite <- abs_IZR. apply (IZR_le 1). lia.
  - change (-70)%Z with (- (70))%Z. rewrite bpow_opp. apply Rinv_le; [assumption|].
    rewrite <- (IZR_Zpower radix2) by lia. apply IZR_le.
    assert (10 ^ 19 <= 2 ^ 70)%Z by (apply Z.leb_le; reflexivity). change (radix_val radix2) with 2%Z. lia.
Qed.

(** The conversion is accurate to four parts in 2^53. *)
Theorem nval_accurate : forall c v, (0 <= conv_exp c <= 18)%Z -> (Z.abs v < 2 ^ 64)%Z ->
  Rabs (nval c v - IZR v / IZR (10 ^ conv_exp c)) <= bpow radix2 (-51) * Rabs (IZR v / IZR (10 ^ conv_exp c)).
Proof.
  intros c v Hk Hv. unfold nval. set (k := conv_exp c) in *.
  pose proof (pow10_pos k ltac:(lia)) as Hp. pose proof (pow10_le k 19 ltac:(lia)) as Hp2.
  set (d := (10 ^ k)%Z) in *.
  assert (Hd : 0 < IZR d) by (apply IZR_lt; lia).
  assert (Hi : 0 < / IZR d) by now apply Rinv_0_lt_compat.
  pose proof (quot_bound v d Hp) as Bq. pose proof (rem_bound' v d Hp) as Br.
  set (u := bpow radix2 (-53)).
  assert (Hu : 0 < u < / 1000).
  { split; [apply bpow_gt_0|]. unfold u. apply Rlt_trans with (bpow radix2 (-10)); [apply bpow_lt; lia|].
    change (bpow radix2 (-10)) with (/ 1024). lra. }
  assert (Hu51 : bpow radix2 (-51) = 4 * u).
  { unfold u. change 4 with (bpow radix2 2). rewrite <- bpow_plus. reflexivity. }
  rewrite Hu51.
  assert (RI : forall n, Rabs (rd (IZR n) - IZR n) <= u * Rabs (IZR n)).
  { intros n. apply rd_rel. destruct (Z.eq_dec n 0) as [->|Hn]; [left; reflexivity|right].
    rewrite <- abs_IZR. apply Rle_trans with 1; [|apply (IZR_le 1); lia].
    change 1 with (bpow radix2 0). apply bpow_le; lia. }
  (* the fraction *)
  assert (RF : forall n, Rabs (rd (rd (IZR n) / IZR d) - IZR n / IZR d) <= (2 * u + u * u) * Rabs (IZR n / IZR d)).
  { intros n. pose proof (RI n) as E1.
    assert (E1' : Rabs (rd (IZR n) / IZR d - IZR n / IZR d) <= u * Rabs (IZR n / IZR d)).
    { unfold Rdiv. rewrite <- Rmult_minus_distr_r, !Rabs_mult, (Rabs_pos_eq (/ IZR d)) by lra.
      rewrite <- Rmult_assoc. apply Rmult_le_compat_r; lra. }
    set (a := rd (IZR n) / IZR d) in *. set (b := IZR n / IZR d) in *.
    assert (E2 : Rabs (rd a - a) <= u * Rabs a).
    { apply rd_rel. destruct (Z.eq_dec n 0) as [->|Hn].
      - left. unfold a. rewrite rnd_0 by typeclasses eauto. unfold Rdiv. lra.
      - right. pose proof (small_ok n d Hn ltac:(lia)) as S. fold b in S.
        apply Rle_trans with (bpow radix2 (-70) / 2).
        + apply Rle_trans with (bpow radix2 (-71)); [apply bpow_le; lia|].
          right. change (bpow radix2 (-70)) with (bpow radix2 (-71 + 1)). rewrite bpow_plus. change (bpow radix2 1) with 2. lra.
        + pose proof (Rabs_triang_inv b (b - a)) as T. replace (b - (b - a)) with a in T by lra.
          rewrite (Rabs_minus_sym b a) in T.
          assert (u * Rabs b <= / 2 * Rabs b) by (apply Rmult_le_compat_r; [apply Rabs_pos|lra]). lra. }
    pose proof (Rabs_triang (rd a - a) (a - b)) as T. replace (rd a - a + (a - b)) with (rd a - b) in T by lra.
    pose proof (Rabs_triang (a - b) b) as T2. replace (a - b + b) with a in T2 by lra.
    nra. }
  destruct (nc_norm c).
  - set (q := Z.quot v d) in *. set (r := Z.rem v d) in *.
    pose proof (ratio_split v d Hp) as Es. fold q in Es. fold r in Es.
    assert (Ea : Rabs (IZR v / IZR d) = Rabs (IZR q) + Rabs (IZR r / IZR d)).
    { rewrite Es. destruct (Z_le_gt_dec 0 v).
      - assert (0 <= q)%Z by (apply Z.quot_pos; lia). assert (0 <= r)%Z by (apply Z.rem_nonneg; lia).
        assert (0 <= IZR r / IZR d) by (apply Rmult_le_pos; [apply IZR_le; lia|lra]).
        assert (0 <= IZR q) by (apply IZR_le; lia).
        rewrite !Rabs_pos_eq; lra.
      - assert (Z.le q 0).
        { unfold q. replace v with (- (- v))%Z by lia. rewrite Z.quot_opp_l by lia.
          assert (0 <= Z.quot (- v) d)%Z by (apply Z.quot_pos; lia). lia. }
        assert (r <= 0)%Z.
        { unfold r. apply Z.rem_nonpos; lia. }
        assert (IZR r / IZR d <= 0).
        { replace (IZR r) with (- IZR (- r)) by (rewrite opp_IZR; lra). rewrite Ropp_div.
          assert (0 <= IZR (- r) / IZR d) by (apply Rmult_le_pos; [apply IZR_le; lia|lra]). lra. }
        assert (IZR q <= 0) by (apply IZR_le; lia).
        rewrite !Rabs_left1; lra. }
    pose proof (RI q) as Eq. pose proof (RF r) as Er.
    set (q' := rd (IZR q)) in *. set (t := rd (rd (IZR r) / IZR d)) in *.
    set (f := IZR r / IZR d) in *. set (x := IZR v / IZR d) in *.
    assert (Esum : Rabs (q' + t - x) <= (2 * u + u * u) * Rabs x).
    { rewrite Es at 1. rewrite Ea.
      replace (q' + t - (IZR q + f)) with ((q' - IZR q) + (t - f)) by lra.
      apply Rle_trans with (1 := Rabs_triang _ _). pose proof (Rabs_pos (IZR q)). nra. }
    assert (El : Rabs (rd (q' + t) - (q' + t)) <= u * Rabs (q' + t)).
    { apply rd_rel. destruct (Z.eq_dec v 0) as [Hz|Hn].
      - left. assert (x = 0) by (unfold x; rewrite Hz; unfold Rdiv; lra).
        rewrite H, Rabs_R0, Rmult_0_r, Rminus_0_r in Esum.
        destruct (Req_dec (q' + t) 0); [assumption|]. pose proof (Rabs_pos_lt _ H0). lra.
      - right. pose proof (small_ok v d Hn ltac:(lia)) as S. fold x in S.
        apply Rle_trans with (bpow radix2 (-70) / 2).
        + apply Rle_trans with (bpow radix2 (-71)); [apply bpow_le; lia|].
          right. change (bpow radix2 (-70)) with (bpow radix2 (-71 + 1)). rewrite bpow_plus. change (bpow radix2 1) with 2. lra.
        + pose proof (Rabs_triang_inv x (x - (q' + t))) as T. replace (x - (x - (q' + t))) with (q' + t) in T by lra.
          rewrite (Rabs_minus_sym x) in T.
          assert ((2 * u + u * u) * Rabs x <= / 2 * Rabs x) by (apply Rmult_le_compat_r; [apply Rabs_pos|nra]). lra. }
    pose proof (Rabs_triang (rd (q' + t) - (q' + t)) (q' + t - x)) as T.
    replace (rd (q' + t) - (q' + t) + (q' + t - x)) with (rd (q' + t) - x) in T by lra.
    pose proof (Rabs_triang (q' + t - x) x) as T2. replace (q' + t - x + x) with (q' + t) in T2 by lra.
    assert (u * Rabs (q' + t) <= u * (Rabs (q' + t - x) + Rabs x)) by (apply Rmult_le_compat_l; lra).
    assert (u * Rabs (q' + t - x) <= u * ((2 * u + u * u) * Rabs x)) by (apply Rmult_le_compat_l; lra).
    assert (u * ((2 * u + u * u) * Rabs x) + u * Rabs x + (2 * u + u * u) * Rabs x <= 4 * u * Rabs x).
    { replace (u * ((2 * u + u * u) * Rabs x) + u * Rabs x + (2 * u + u * u) * Rabs x)
        with (u * (3 + 3 * u + u * u) * Rabs x) by lra.
      apply Rmult_le_compat_r; [apply Rabs_pos|]. nra. }
    lra.
  - apply Rle_trans with (1 := RF v). apply Rmult_le_compat_r; [apply Rabs_pos|nra].
Qed.
