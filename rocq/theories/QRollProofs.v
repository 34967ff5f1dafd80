(** QRollProofs.v -- rounding errors of prices rolled over dividends. *)
From Coq Require Import ZArith Arith List Bool Lia Reals Lra.
From Flocq Require Import Core Relative IEEE754.BinarySingleNaN.
From Verif Require Import Base FloatModel FloatFacts QDateModel QFloatErr QDivModel QDivSpec QDivProps.
Import ListNotations.
Open Scope R_scope.

(** a factor that is off by at most n roundings *)
Definition band (n : nat) (t : R) : Prop := Rabs (t - 1) <= (1 + e24) ^ n - 1.
Lemma pow_ge_1 : forall n, 1 <= (1 + e24) ^ n.
Proof. induction n as [|n IH]; cbn; [lra|]. pose proof e24_pos. assert (1 * 1 <= (1 + e24) * (1 + e24) ^ n) by (apply Rmult_le_compat; lra). lra. Qed.
Lemma band_0 : band 0 1.
Proof. unfold band. cbn. rewrite Rminus_diag_eq by reflexivity. rewrite Rabs_R0. lra. Qed.
Lemma band_step : forall n t d, band n t -> Rabs d <= e24 -> band (S n) (t * (1 + d)).
Proof.
  intros n t d H D. unfold band in *. pose proof (pow_ge_1 n) as P. pose proof e24_pos as E0.
  replace (t * (1 + d) - 1) with ((t - 1) * (1 + d) + d) by ring. apply Rle_trans with (1 := Rabs_triang _ _). rewrite Rabs_mult.
  assert (A : Rabs (1 + d) <= 1 + e24) by (apply Rle_trans with (1 := Rabs_triang _ _); rewrite Rabs_R1; lra).
  assert (B : Rabs (t - 1) * Rabs (1 + d) <= ((1 + e24) ^ n - 1) * (1 + e24)) by (apply Rmult_le_compat; auto using Rabs_pos).
  cbn [pow]. lra.
Qed.
Lemma pow_inv : forall n, INR n * e24 <= 1 -> (1 + e24) ^ n * (1 - INR n * e24) <= 1.
Proof.
  induction n as [|n IH]; intro H; [cbn; lra|]. rewrite S_INR in *. pose proof e24_pos as E0. pose proof (pow_ge_1 n) as P. pose proof (pos_INR n) as N0.
  assert (IH' : (1 + e24) ^ n * (1 - INR n * e24) <= 1) by (apply IH; lra). cbn [pow].
  replace ((1 + e24) * (1 + e24) ^ n * (1 - (INR n + 1) * e24)) with ((1 + e24) ^ n * (1 - INR n * e24) - (1 + e24) ^ n * ((INR n + 1) * (e24 * e24))) by ring.
  assert (0 <= (1 + e24) ^ n * ((INR n + 1) * (e24 * e24))); [|lra]. apply Rmult_le_pos; [lra|]. apply Rmult_le_pos; [lra|]. apply Rmult_le_pos; lra.
Qed.
(** up to 2^22 roundings *)
Lemma pow_linear : forall n, (Z.of_nat n <= 4194304)%Z -> (1 + e24) ^ n - 1 <= 4 / 3 * (INR n * e24) /\ (1 + e24) ^ n <= 4 / 3.
Proof.
  intros n H. assert (N : INR n <= 4194304) by (rewrite INR_IZR_INZ; apply IZR_le; exact H).
  pose proof (pos_INR n) as N0. assert (B : 0 <= INR n * e24 <= / 4) by (unfold e24; lra).
  pose proof (pow_inv n ltac:(lra)) as P. set (z := INR n * e24) in *. set (p := (1 + e24) ^ n) in *. clearbody z p.
  assert (p <= 4 / 3).
  { apply Rmult_le_reg_r with (1 - z); [lra|]. apply Rle_trans with (1 := P). apply Rle_trans with (4 / 3 * (3 / 4)); [lra|]. apply Rmult_le_compat_l; lra. }
  split; [|assumption]. assert (p - 1 <= p * z) by lra. apply Rle_trans with (1 := H1). apply Rmult_le_compat_r; lra.
Qed.
Lemma band_range : forall n t, (Z.of_nat n <= 4194304)%Z -> band n t -> 2 / 3 <= t <= 4 / 3.
Proof. intros n t H B. unfold band in B. destruct (pow_linear n H) as [_ P]. apply Rabs_le_inv in B. lra. Qed.
Lemma band_linear : forall n t, (Z.of_nat n <= 4194304)%Z -> band n t -> Rabs (t - 1) <= 4 / 3 * (INR n * e24).
Proof. intros n t H B. unfold band in B. destruct (pow_linear n H) as [P _]. lra. Qed.

(** roundings that do not underflow *)
Definition small : R := bpow radix2 (-126).
Lemma rnd_rel : forall x, small <= Rabs x -> exists d, Rabs d <= e24 /\ rnd 24 128 x = x * (1 + d).
Proof.
  intros x H. unfold rnd. change (SpecFloat.fexp 24 128) with (FLT_exp (-149) 24).
  destruct (relative_error_N_FLT_ex radix2 (-149) 24 ltac:(lia) (fun z => negb (Z.even z)) x H) as (d & D & E).
  exists d. split; [|exact E]. apply Rle_trans with (1 := D). unfold e24. change (bpow radix2 (- (24) + 1)) with (/ 8388608). lra.
Qed.
Definition lo : R := bpow radix2 (-100).
Definition hi : R := bpow radix2 100.
Lemma lo_small : small <= lo * (1 / 2).
Proof. unfold small, lo. replace (1 / 2) with (bpow radix2 (-1)) by (cbn; lra). rewrite <- bpow_plus. apply bpow_le. lia. Qed.
Lemma hi_huge : hi * 2 <= huge 128.
Proof. unfold hi, huge. change 2 with (bpow radix2 1). rewrite <- bpow_plus. apply bpow_le. lia. Qed.
Lemma lo_pos : 0 < lo. Proof. apply bpow_gt_0. Qed.
Lemma in_reach : forall E t, lo <= E <= hi -> 2 / 3 <= t <= 4 / 3 -> small <= Rabs (E * t) /\ Rabs (E * t) <= huge 128.
Proof.
  intros E t H T. pose proof lo_pos. pose proof lo_small. pose proof hi_huge. assert (0 < E * t) by (apply Rmult_lt_0_compat; lra). rewrite Rabs_pos_eq by lra.
  assert (lo * (2 / 3) <= E * t) by (apply Rmult_le_compat; lra). assert (E * t <= hi * (4 / 3)) by (apply Rmult_le_compat; lra). lra.
Qed.
Lemma mul_step : forall x g E f t n, fn x (E * t) -> fn g f -> lo <= E * f <= hi -> band n t -> (Z.of_nat n <= 4194304)%Z ->
  exists t', fn (gmul x g) (E * f * t') /\ band (S n) t'.
Proof.
  intros x g E f t n Fx Fg R B N. pose proof (band_range n t N B) as T. destruct (in_reach (E * f) t R T) as [S1 S2].
  destruct (rnd_rel (E * f * t) S1) as (d & D & Q). exists (t * (1 + d)). split; [|apply band_step; assumption].
  replace (E * f * (t * (1 + d))) with (rnd 24 128 (E * t * f)) by (replace (E * t * f) with (E * f * t) by ring; rewrite Q; ring).
  apply fin_mul; auto. replace (E * t * f) with (E * f * t) by ring. exact S2.
Qed.
Lemma div_step : forall x g E f t n, fn x (E * t) -> fn g f -> 0 < f -> lo <= E / f <= hi -> band n t -> (Z.of_nat n <= 4194304)%Z ->
  exists t', fn (gdiv x g) (E / f * t') /\ band (S n) t'.
Proof.
  intros x g E f t n Fx Fg Pf R B N. pose proof (band_range n t N B) as T. destruct (in_reach (E / f) t R T) as [S1 S2].
  destruct (rnd_rel (E / f * t) S1) as (d & D & Q). exists (t * (1 + d)). split; [|apply band_step; assumption].
  assert (EE : E * t / f = E / f * t) by (field; lra).
  replace (E / f * (t * (1 + d))) with (rnd 24 128 (E * t / f)) by (rewrite EE, Q; ring). apply fin_div; auto; [lra|]. rewrite EE. exact S2.
Qed.

Lemma factor_fin : forall y, mild y -> fn (gsub (gof_Z 1) y) (factor y) /\ 0 < factor y <= 1 /\ Rabs (factor y - (1 - B2R y)) <= e24 * (1 - B2R y).
Proof.
  intros y [F Y]. assert (BB : Rabs (1 - B2R y) <= huge 128).
  { rewrite Rabs_pos_eq by lra. apply Rle_trans with (bpow radix2 0); [cbn; lra|]. apply bpow_le. lia. }
  pose proof (fin_sub 24 128 (gof_Z 1) y 1 (B2R y) one_fn (conj F eq_refl) BB) as H. fold (factor y) in H. split; [exact H|].
  destruct (sub_err (gof_Z 1) y 1 (B2R y) one_fn (conj F eq_refl) BB) as (v & d & Fv & D & E). pose proof (fin_fun 24 128 _ _ _ H Fv) as EE.
  assert (D' := Rabs_le_inv _ _ D). unfold e24 in D'. rewrite EE, E. split; [split|].
  - apply Rmult_lt_0_compat; lra.
  - rewrite <- E, <- EE. unfold factor. replace 1 with (rnd 24 128 1) at 2 by (apply (rnd_int 24 128 1); apply Z.leb_le; reflexivity). apply rnd_le; [exact p24|lra].
  - replace ((1 - B2R y) * (1 + d) - (1 - B2R y)) with ((1 - B2R y) * d) by ring. rewrite Rabs_mult, Rabs_pos_eq by lra. rewrite Rmult_comm. apply Rmult_le_compat_r; lra.
Qed.
Lemma product_range : forall ys, Forall mild ys -> 0 < product ys <= 1.
Proof.
  induction ys as [|y ys IH]; intro F; cbn [product]; [lra|]. assert (M := Forall_inv F). assert (F' := Forall_inv_tail F). destruct (factor_fin y M) as (_ & A & _). destruct (IH F') as [B C]. split; [apply Rmult_lt_0_compat; lra|]. 
  apply Rle_trans with (1 * 1); [apply Rmult_le_compat; lra|lra].
Qed.
Lemma fold_mul : forall ys x E t n, Forall mild ys -> fn x (E * t) -> band n t -> (Z.of_nat (n + length ys) <= 4194304)%Z -> E <= hi -> lo <= E * product ys ->
  exists t', fn (fold_left (fun p y => gmul p (gsub (gof_Z 1) y)) ys x) (E * product ys * t') /\ band (n + length ys) t'.
Proof.
  induction ys as [|y ys IH]; intros x E t n F Fx B N H1 H2; cbn [fold_left product length].
  - exists t. rewrite Rmult_1_r, Nat.add_0_r. auto.
  - assert (M := Forall_inv F). assert (F' := Forall_inv_tail F). destruct (factor_fin y M) as (Fg & A & _). destruct (product_range ys F') as [P1 P2]. cbn [product length] in *. pose proof lo_pos as L0.
    assert (E0 : 0 < E).
    { apply Rmult_lt_reg_r with (factor y * product ys); [apply Rmult_lt_0_compat; lra|]. lra. }
    assert (R1 : E * factor y <= E * 1) by (apply Rmult_le_compat_l; lra).
    assert (R2 : lo <= E * factor y).
    { apply Rle_trans with (1 := H2). replace (E * (factor y * product ys)) with (E * factor y * product ys) by ring. rewrite <- (Rmult_1_r (E * factor y)) at 2. apply Rmult_le_compat_l; [apply Rmult_le_pos; lra|lra]. }
    destruct (mul_step x _ E (factor y) t n Fx Fg ltac:(lra) B ltac:(lia)) as (t1 & F1 & B1).
    destruct (IH _ (E * factor y) t1 (S n) F' F1 B1 ltac:(lia) ltac:(lra)) as (t2 & F2 & B2).
    { apply Rle_trans with (1 := H2). right. ring. }
    exists t2. split; [|replace (n + S (length ys))%nat with (S n + length ys)%nat by lia; exact B2].
    replace (E * (factor y * product ys) * t2) with (E * factor y * product ys * t2) by ring. exact F2.
Qed.
Lemma fold_div : forall ys x E t n, Forall mild ys -> fn x (E * t) -> band n t -> (Z.of_nat (n + length ys) <= 4194304)%Z -> lo <= E -> E / product ys <= hi ->
  exists t', fn (fold_left (fun p y => gdiv p (gsub (gof_Z 1) y)) ys x) (E / product ys * t') /\ band (n + length ys) t'.
Proof.
  induction ys as [|y ys IH]; intros x E t n F Fx B N H1 H2; cbn [fold_left product length].
  - exists t. replace (E / 1) with E by field. rewrite Nat.add_0_r. auto.
  - assert (M := Forall_inv F). assert (F' := Forall_inv_tail F). destruct (factor_fin y M) as (Fg & A & _). destruct (product_range ys F') as [P1 P2]. cbn [product length] in *. pose proof lo_pos as L0.
    assert (I1 : 1 <= / factor y) by (rewrite <- Rinv_1; apply Rinv_le; lra). assert (I2 : 1 <= / product ys) by (rewrite <- Rinv_1; apply Rinv_le; lra).
    assert (EQ : E / (factor y * product ys) = E / factor y / product ys) by (field; lra).
    assert (R1 : E * 1 <= E / factor y) by (unfold Rdiv; apply Rmult_le_compat_l; lra).
    assert (R2 : E / factor y <= hi).
    { apply Rle_trans with (2 := H2). rewrite EQ. unfold Rdiv at 2. rewrite <- (Rmult_1_r (E / factor y)) at 1. apply Rmult_le_compat_l; lra. }
    destruct (div_step x _ E (factor y) t n Fx Fg ltac:(lra) ltac:(lra) B ltac:(lia)) as (t1 & F1 & B1).
    destruct (IH _ (E / factor y) t1 (S n) F' F1 B1 ltac:(lia) ltac:(lra)) as (t2 & F2 & B2).
    { rewrite <- EQ. exact H2. }
    exists t2. split; [|replace (n + S (length ys))%nat with (S n + length ys)%nat by lia; exact B2].
    rewrite EQ. exact F2.
Qed.

Lemma mild_filter : forall (f : odt * f32 -> bool) l, Forall mild (map snd l) -> Forall mild (map snd (List.filter f l)).
Proof.
  intros f l F. rewrite List.Forall_forall in *. intros y Hy. apply in_map_iff in Hy. destruct Hy as (p & <- & Hp). apply filter_In in Hp. apply F. apply in_map. tauto.
Qed.
Lemma product_filter : forall (f : odt * f32 -> bool) l, Forall mild (map snd l) -> product (map snd l) <= product (map snd (List.filter f l)) <= 1.
Proof.
  intros f l F. split; [|apply product_range; apply mild_filter; exact F]. induction l as [|p l IH]; [cbn; lra|]. cbn [List.filter map] in *. assert (M := Forall_inv F). assert (F' := Forall_inv_tail F).
  destruct (factor_fin (snd p) M) as (_ & A & _). pose proof (product_range _ F') as P. pose proof (product_range _ (mild_filter f l F')) as Q. specialize (IH F'). destruct (f p); cbn [map product].
  - apply Rmult_le_compat; lra.
  - apply Rle_trans with (1 * product (map snd l)); [apply Rmult_le_compat; lra|lra].
Qed.
Lemma level_between : forall a b l, (instant a <= instant b)%Z -> level b l = level a l * product (map snd (between a b l)).
Proof.
  intros a b l H. unfold level, between. induction l as [|[d y] l IH]; [cbn; lra|]. cbn [List.filter fst].
  destruct (Z.leb_spec (instant d) (instant b)), (Z.leb_spec (instant d) (instant a)), (Z.ltb_spec (instant a) (instant d)); cbn [andb map snd product]; try lia; rewrite IH; ring.
Qed.
