(** FloatFacts.v -- what FloatModel's operations compute: each is the exact
    real operation followed by one rounding, while nothing overflows. *)
From Coq Require Import ZArith Reals Bool Lia Lra Psatz.
From Flocq Require Import Core.
From Flocq Require Import IEEE754.BinarySingleNaN.
From Verif Require Import FloatModel.
Open Scope R_scope.

Section Facts.
Context (prec emax : Z) {Hp : Prec_gt_0 prec} {Hpe : Prec_lt_emax prec emax}.
Notation fl := (binary_float prec emax).
Notation fexp := (SpecFloat.fexp prec emax).
Notation emin := (SpecFloat.emin prec emax).

(** Rounding to nearest even in this format (without a largest number). *)
Definition rnd (x : R) : R := round radix2 fexp ZnearestE x.
(** Nothing up to here overflows. *)
Definition huge : R := bpow radix2 (emax - 1).
(** [x] is the finite number with value [r]. *)
Definition fin (x : fl) (r : R) : Prop := is_finite x = true /\ B2R x = r.

#[local] Instance fx_valid : Valid_exp fexp := FLT_exp_valid emin prec.
#[local] Instance fx_mono : Monotone_exp fexp := FLT_exp_monotone emin prec.

Lemma prec_pos : (0 < prec)%Z. Proof. exact Hp. Qed.
Lemma prec_emax : (prec < emax)%Z. Proof. exact Hpe. Qed.

Lemma rnd_le : forall x y, x <= y -> rnd x <= rnd y.
Proof. intros. apply round_le; auto with typeclass_instances. Qed.
Lemma rnd_0 : rnd 0 = 0.
Proof. apply round_0; auto with typeclass_instances. Qed.
Lemma rnd_opp : forall x, rnd (- x) = - rnd x.
Proof. intros. apply round_NE_opp. Qed.
Lemma rnd_nonneg : forall x, 0 <= x -> 0 <= rnd x.
Proof. intros x H. rewrite <- rnd_0. apply rnd_le, H. Qed.
Lemma rnd_nonpos : forall x, x <= 0 -> rnd x <= 0.
Proof. intros x H. rewrite <- rnd_0. apply rnd_le, H. Qed.
Lemma rnd_abs : forall x, Rabs (rnd x) = rnd (Rabs x).
Proof.
  intros x. destruct (Rle_or_lt 0 x).
  - rewrite !Rabs_pos_eq; auto using rnd_nonneg.
  - rewrite (Rabs_left x), rnd_opp by lra. rewrite Rabs_left1; [reflexivity|]. apply rnd_nonpos. lra.
Qed.

Lemma rnd_fix : forall x, generic_format radix2 fexp x -> rnd x = x.
Proof. intros. apply round_generic; auto with typeclass_instances. Qed.
Lemma fmt_B2R : forall x : fl, generic_format radix2 fexp (B2R x).
Proof. intros. apply generic_format_B2R. Qed.
Lemma rnd_B2R : forall x : fl, rnd (B2R x) = B2R x.
Proof. intros. apply rnd_fix, fmt_B2R. Qed.
Lemma rnd_rnd : forall x, rnd (rnd x) = rnd x.
Proof. intros. apply rnd_fix. apply generic_format_round; auto with typeclass_instances. Qed.

Lemma fmt_bpow : forall e, (emin + prec <= e)%Z -> generic_format radix2 fexp (bpow radix2 e).
Proof.
  intros e H. apply generic_format_bpow. change (FLT_exp emin prec (e + 1) <= e)%Z.
  unfold FLT_exp. pose proof prec_pos. lia.
Qed.

Lemma fmt_int : forall n, (Z.abs n <= 2 ^ prec)%Z -> generic_format radix2 fexp (IZR n).
Proof.
  intros n H. apply (generic_format_FLT radix2 emin prec).
  pose proof prec_pos. pose proof prec_emax.
  destruct (Z.eq_dec (Z.abs n) (2 ^ prec)) as [E|E].
  - destruct (Z.abs_spec n) as [[? A]|[? A]].
    + exists (Float radix2 1 prec); cbn [Fnum Fexp].
      * unfold F2R; cbn [Fnum Fexp]. rewrite Rmult_1_l.
        rewrite <- (IZR_Zpower radix2) by lia. f_equal. change (radix_val radix2) with 2%Z. lia.
      * change (Z.abs 1) with 1%Z. replace (radix2 ^ prec)%Z with (2 ^ prec)%Z by reflexivity.
        apply Z.pow_gt_1; lia.
      * unfold SpecFloat.emin. lia.
    + exists (Float radix2 (-1) prec); cbn [Fnum Fexp].
      * unfold F2R; cbn [Fnum Fexp].
        rewrite <- (IZR_Zpower radix2) by lia. rewrite <- mult_IZR. f_equal.
        change (radix_val radix2) with 2%Z. lia.
      * change (Z.abs (-1)) with 1%Z. replace (radix2 ^ prec)%Z with (2 ^ prec)%Z by reflexivity.
        apply Z.pow_gt_1; lia.
      * unfold SpecFloat.emin. lia.
  - exists (Float radix2 n 0); cbn [Fnum Fexp].
    + unfold F2R; cbn. lra.
    + change (radix2 ^ prec)%Z with (2 ^ prec)%Z. lia.
    + unfold SpecFloat.emin. lia.
Qed.

Lemma rnd_int : forall n, (Z.abs n <= 2 ^ prec)%Z -> rnd (IZR n) = IZR n.
Proof. intros. apply rnd_fix, fmt_int. assumption. Qed.

Lemma rnd_bpow_le : forall e x, (emin + prec <= e)%Z -> Rabs x <= bpow radix2 e -> Rabs (rnd x) <= bpow radix2 e.
Proof.
  intros e x He Hx. rewrite rnd_abs. rewrite <- (rnd_fix (bpow radix2 e)) by now apply fmt_bpow.
  apply rnd_le, Hx.
Qed.

Lemma huge_big : (emin + prec <= emax - 1)%Z.
Proof. pose proof prec_pos; pose proof prec_emax. unfold SpecFloat.emin. lia. Qed.

Lemma rnd_huge : forall x, Rabs x <= huge -> Rabs (rnd x) < bpow radix2 emax.
Proof.
  intros x H. apply Rle_lt_trans with (bpow radix2 (emax - 1)).
  - apply rnd_bpow_le; [exact huge_big|exact H].
  - apply bpow_lt. lia.
Qed.

Lemma rnd_huge_le : forall x, Rabs x <= huge -> Rabs (rnd x) <= huge.
Proof. intros x H. apply rnd_bpow_le; [exact huge_big|exact H]. Qed.

Lemma fin_B2R : forall x : fl, is_finite x = true -> fin x (B2R x).
Proof. intros. split; auto. Qed.
Lemma fin_fun : forall (x : fl) a b, fin x a -> fin x b -> a = b.
Proof. intros x a b [_ A] [_ B]. congruence. Qed.
Lemma fin_rnd : forall (x : fl) a, fin x a -> rnd a = a.
Proof. intros x a [_ <-]. apply rnd_B2R. Qed.

Lemma fin_add : forall (x y : fl) a b, fin x a -> fin y b -> Rabs (a + b) <= huge -> fin (gadd x y) (rnd (a + b)).
Proof.
  intros x y a b [Fx <-] [Fy <-] H. unfold gadd.
  pose proof (Bplus_correct prec emax Hp Hpe mode_NE x y Fx Fy) as C. cbn [round_mode] in C.
  rewrite Rlt_bool_true in C by (now apply rnd_huge).
  destruct C as (C1 & C2 & _). split; [exact C2|exact C1].
Qed.

Lemma fin_sub : forall (x y : fl) a b, fin x a -> fin y b -> Rabs (a - b) <= huge -> fin (gsub x y) (rnd (a - b)).
Proof.
  intros x y a b [Fx <-] [Fy <-] H. unfold gsub.
  pose proof (Bminus_correct prec emax Hp Hpe mode_NE x y Fx Fy) as C. cbn [round_mode] in C.
  rewrite Rlt_bool_true in C by (now apply rnd_huge).
  destruct C as (C1 & C2 & _). split; [exact C2|exact C1].
Qed.

Lemma fin_mul : forall (x y : fl) a b, fin x a -> fin y b -> Rabs (a * b) <= huge -> fin (gmul x y) (rnd (a * b)).
Proof.
  intros x y a b [Fx <-] [Fy <-] H. unfold gmul.
  pose proof (Bmult_correct prec emax Hp Hpe mode_NE x y) as C. cbn [round_mode] in C.
  rewrite Rlt_bool_true in C by (now apply rnd_huge).
  destruct C as (C1 & C2 & _). split; [|exact C1]. rewrite C2, Fx, Fy. reflexivity.
Qed.

Lemma fin_div : forall (x y : fl) a b, fin x a -> fin y b -> b <> 0 -> Rabs (a / b) <= huge -> fin (gdiv x y) (rnd (a / b)).
Proof.
  intros x y a b [Fx <-] [Fy <-] Hb H. unfold gdiv.
  pose proof (Bdiv_correct prec emax Hp Hpe mode_NE x y Hb) as C. cbn [round_mode] in C.
  rewrite Rlt_bool_true in C by (now apply rnd_huge).
  destruct C as (C1 & C2 & _). split; [|exact C1]. rewrite C2. exact Fx.
Qed.

Lemma fin_neg : forall (x : fl) a, fin x a -> fin (gneg x) (- a).
Proof.
  intros x a [Fx <-]. unfold gneg. split; [rewrite is_finite_Bopp; exact Fx|apply B2R_Bopp].
Qed.

Lemma fin_of_Z : forall n, Rabs (IZR n) <= huge -> fin (gof_Z n) (rnd (IZR n)).
Proof.
  intros n H. unfold gof_Z.
  pose proof (binary_normalize_correct prec emax Hp Hpe mode_NE n 0 false) as C. cbn zeta in C.
  assert (E : F2R (Float radix2 n 0) = IZR n) by (unfold F2R; cbn; lra).
  rewrite E in C. cbn [round_mode] in C.
  rewrite Rlt_bool_true in C by (now apply rnd_huge).
  destruct C as (C1 & C2 & _). split; [exact C2|exact C1].
Qed.

Lemma fin_zero : fin gzero 0.
Proof. split; reflexivity. Qed.

Lemma fin_lt : forall (x y : fl) a b, fin x a -> fin y b -> glt x y = true <-> a < b.
Proof.
  intros x y a b [Fx <-] [Fy <-]. unfold glt. rewrite Bltb_correct by assumption.
  destruct (Rlt_bool_spec (B2R x) (B2R y)); split; intros; try lra; congruence.
Qed.
Lemma fin_lt_false : forall (x y : fl) a b, fin x a -> fin y b -> glt x y = false <-> b <= a.
Proof.
  intros x y a b [Fx <-] [Fy <-]. unfold glt. rewrite Bltb_correct by assumption.
  destruct (Rlt_bool_spec (B2R x) (B2R y)); split; intros; try lra; congruence.
Qed.
Lemma fin_eq : forall (x y : fl) a b, fin x a -> fin y b -> geq x y = true <-> a = b.
Proof.
  intros x y a b [Fx <-] [Fy <-]. unfold geq. rewrite Beqb_correct by assumption.
  destruct (Req_bool_spec (B2R x) (B2R y)); split; intros; try lra; congruence.
Qed.
Lemma fin_eq_false : forall (x y : fl) a b, fin x a -> fin y b -> geq x y = false <-> a <> b.
Proof.
  intros x y a b [Fx <-] [Fy <-]. unfold geq. rewrite Beqb_correct by assumption.
  destruct (Req_bool_spec (B2R x) (B2R y)); split; intros; try lra; congruence.
Qed.
Lemma fin_le : forall (x y : fl) a b, fin x a -> fin y b -> gle x y = true <-> a <= b.
Proof.
  intros x y a b [Fx <-] [Fy <-]. unfold gle. rewrite Bleb_correct by assumption.
  destruct (Rle_bool_spec (B2R x) (B2R y)); split; intros; try lra; congruence.
Qed.

(** The error of one rounding of a number of magnitude at most [bpow e]. *)
Lemma rnd_err : forall e x, (emin + prec <= e)%Z -> Rabs x <= bpow radix2 e ->
  Rabs (rnd x - x) <= bpow radix2 (e - prec - 1).
Proof.
  intros e x He Hx.
  destruct (Rle_lt_or_eq_dec _ _ Hx) as [Hlt|Heq].
  - pose proof (error_le_half_ulp radix2 fexp (fun z => negb (Z.even z)) x) as H.
    apply Rle_trans with (1 := H).
    assert (Hu : ulp radix2 fexp x <= bpow radix2 (e - prec)).
    { destruct (Req_dec x 0) as [->|Hx0].
      - change fexp with (FLT_exp emin prec). rewrite ulp_FLT_0 by exact Hp. apply bpow_le. lia.
      - rewrite ulp_neq_0 by assumption. apply bpow_le. unfold cexp.
        change (FLT_exp emin prec (mag radix2 x) <= e - prec)%Z. unfold FLT_exp.
        assert (mag radix2 x <= e)%Z by (apply mag_le_bpow; assumption).
        pose proof prec_pos. lia. }
    replace (e - prec)%Z with ((e - prec - 1) + 1)%Z in Hu by lia.
    rewrite bpow_plus in Hu. change (bpow radix2 1) with 2 in Hu. lra.
  - rewrite rnd_fix.
    + rewrite Rminus_eq_0, Rabs_R0. apply bpow_ge_0.
    + destruct (Rcase_abs x) as [Hn|Hn].
      * rewrite Rabs_left in Heq by assumption. replace x with (- bpow radix2 e) by lra.
        apply generic_format_opp, fmt_bpow, He.
      * rewrite Rabs_pos_eq in Heq by lra. rewrite Heq. apply fmt_bpow, He.
Qed.

(** Two numbers further apart than the spacing at their magnitude stay apart. *)
Lemma rnd_lt : forall e x y, (emin + prec <= e)%Z -> Rabs x <= bpow radix2 e -> Rabs y <= bpow radix2 e ->
  bpow radix2 (e - prec) < y - x -> rnd x < rnd y.
Proof.
  intros e x y He Hx Hy H.
  pose proof (rnd_err e x He Hx) as Ex. pose proof (rnd_err e y He Hy) as Ey.
  apply Rabs_le_inv in Ex. apply Rabs_le_inv in Ey.
  replace (e - prec)%Z with ((e - prec - 1) + 1)%Z in H by lia.
  rewrite bpow_plus in H. change (bpow radix2 1) with 2 in H. lra.
Qed.
End Facts.
