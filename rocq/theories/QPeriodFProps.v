(** QPeriodFProps.v -- a period string as a number of years: C102. *)
From Coq Require Import ZArith List Bool Ascii String Reals Lia Lra.
From Flocq Require Import Core Relative.
From Flocq Require Import IEEE754.BinarySingleNaN.
From Verif Require Import Base CivilSpec FloatModel FloatFacts QDateModel QCalModel QPeriodModel QPeriodSpec QPeriodProofs QPeriodFModel QYearProofs.
Import ListNotations.
Open Scope R_scope.

(** ** Specification: a month is 30.5 days, a year 365.25 *)
Definition years_in (u : punit) : R :=
  match u with
  | UY => 1 | UM => 30.5 / 365.25 | UW => 7 / 365.25 | UD => 1 / 365.25
  | Uh => 1 / (365.25 * 24) | Umin => 1 / (365.25 * 24 * 60) | Usec => 1 / (365.25 * 24 * 60 * 60)
  end.
Fixpoint exact_years (p : list (list ascii * punit)) : R :=
  match p with [] => 0 | (ds, u) :: q => IZR (value_of ds) * years_in u + exact_years q end.

(** ** Relative errors *)
Definition eps : R := / 16777216.
Definition rel (k : nat) (v t : R) : Prop := t * (1 - eps) ^ k <= v <= t * (1 + eps) ^ k.

Lemma eps_pos : 0 < eps. Proof. unfold eps. lra. Qed.
Lemma up_ge1 : forall k, 1 <= (1 + eps) ^ k.
Proof. intro k. apply pow_R1_Rle. pose proof eps_pos. lra. Qed.
Lemma down_pos : forall k, 0 < (1 - eps) ^ k.
Proof. intro k. apply pow_lt. unfold eps. lra. Qed.
Lemma down_le1 : forall k, (1 - eps) ^ k <= 1.
Proof.
  induction k as [|k IH]; [cbn [pow]; lra|]. cbn [pow]. pose proof (down_pos k). pose proof eps_pos.
  assert ((1 - eps) * (1 - eps) ^ k <= 1 * (1 - eps) ^ k) by (apply Rmult_le_compat_r; lra). lra.
Qed.

Lemma r24_rel : forall x, x = 0 \/ bpow radix2 (-100) <= x -> rel 1 (r24 x) x.
Proof.
  intros x [->|H]; unfold rel; rewrite !pow_1.
  - rewrite rnd_0. lra.
  - assert (P : 0 < x) by (pose proof (bpow_gt_0 radix2 (-100)); lra).
    pose proof (relative_error_N_FLT radix2 (-149) 24 ltac:(lia) (fun z => negb (Z.even z)) x) as E.
    rewrite (Rabs_pos_eq x) in E by lra.
    assert (L : bpow radix2 (-149 + 24 - 1) <= x) by (apply Rle_trans with (2 := H); apply bpow_le; lia).
    specialize (E L). change (round radix2 (FLT_exp (-149) 24) (Znearest (fun z => negb (Z.even z))) x) with (r24 x) in E.
    change (bpow radix2 (- (24) + 1)) with (/ 8388608) in E. apply Rabs_le_inv in E. unfold eps. lra.
Qed.
Lemma rel_trans : forall j k a b c, 0 <= c -> rel j a b -> rel k b c -> rel (j + k) a c.
Proof.
  intros j k a b c C [A1 A2] [B1 B2]. unfold rel. rewrite !pow_add.
  pose proof (down_pos j). pose proof (up_ge1 j). split.
  - apply Rle_trans with (b * (1 - eps) ^ j); [|exact A1]. rewrite (Rmult_comm ((1 - eps) ^ j)), <- Rmult_assoc. apply Rmult_le_compat_r; lra.
  - apply Rle_trans with (b * (1 + eps) ^ j); [exact A2|]. rewrite (Rmult_comm ((1 + eps) ^ j)), <- Rmult_assoc. apply Rmult_le_compat_r; lra.
Qed.
Lemma rel_more : forall j k a b, 0 <= b -> (j <= k)%nat -> rel j a b -> rel k a b.
Proof.
  intros j k a b B L [A1 A2]. unfold rel. replace k with (j + (k - j))%nat by lia. rewrite !pow_add.
  pose proof (down_pos j). pose proof (down_pos (k - j)). pose proof (up_ge1 j). pose proof (up_ge1 (k - j)). pose proof (down_le1 (k - j)). split.
  - apply Rle_trans with (2 := A1). apply Rmult_le_compat_l; [exact B|].
    apply Rle_trans with ((1 - eps) ^ j * 1); [|lra]. apply Rmult_le_compat_l; lra.
  - apply Rle_trans with (1 := A2). apply Rmult_le_compat_l; [exact B|].
    apply Rle_trans with ((1 + eps) ^ j * 1); [lra|]. apply Rmult_le_compat_l; lra.
Qed.
Lemma rel_plus : forall k a b a' b', rel k a a' -> rel k b b' -> rel k (a + b) (a' + b').
Proof. intros k a b a' b' [A1 A2] [B1 B2]. unfold rel. lra. Qed.
Lemma rel_scale : forall k a b c, 0 <= c -> rel k a b -> rel k (a * c) (b * c).
Proof.
  intros k a b c C [A1 A2]. unfold rel. split.
  - replace (b * c * (1 - eps) ^ k) with (b * (1 - eps) ^ k * c) by ring. apply Rmult_le_compat_r; lra.
  - replace (b * c * (1 + eps) ^ k) with (b * (1 + eps) ^ k * c) by ring. apply Rmult_le_compat_r; lra.
Qed.
Lemma rel_nonneg : forall k a b, 0 <= b -> rel k a b -> 0 <= a.
Proof. intros k a b B [A _]. pose proof (down_pos k). assert (0 <= b * (1 - eps) ^ k) by (apply Rmult_le_pos; lra). lra. Qed.
Lemma rel_zero : forall k a, rel k a 0 -> a = 0.
Proof. intros k a [A B]. rewrite Rmult_0_l in A, B. lra. Qed.

(** (1+eps)^k is at most 2 for k up to 2^23 *)
Lemma up_bound : forall k, (1 + eps) ^ k * (1 - INR k * eps) <= 1.
Proof.
  induction k as [|k IH]; [cbn [pow INR]; lra|]. rewrite S_INR. cbn [pow]. pose proof (up_ge1 k). pose proof (pos_INR k). pose proof eps_pos.
  replace ((1 + eps) * (1 + eps) ^ k * (1 - (INR k + 1) * eps))
    with ((1 + eps) ^ k * (1 - INR k * eps) - (1 + eps) ^ k * ((INR k + 1) * (eps * eps))) by ring.
  assert (0 <= (1 + eps) ^ k * ((INR k + 1) * (eps * eps))) by (apply Rmult_le_pos; [lra|]; apply Rmult_le_pos; [lra|]; apply Rmult_le_pos; lra).
  lra.
Qed.
Lemma up_2 : forall k, INR k <= 8388608 -> (1 + eps) ^ k <= 2.
Proof.
  intros k H. pose proof (up_bound k) as B. pose proof (up_ge1 k).
  assert (D : / 2 <= 1 - INR k * eps) by (unfold eps; lra).
  assert ((1 + eps) ^ k * / 2 <= (1 + eps) ^ k * (1 - INR k * eps)) by (apply Rmult_le_compat_l; lra). lra.
Qed.

(** ** One capture *)
Lemma huge_top : huge 128 = bpow radix2 127. Proof. reflexivity. Qed.
Lemma below_huge : forall x, 0 <= x <= bpow radix2 120 -> Rabs x <= huge 128.
Proof.
  intros x H. rewrite huge_top, Rabs_pos_eq by lra. apply Rle_trans with (1 := proj2 H). apply bpow_le. lia.
Qed.
Lemma c30_5_fin : fin24 c30_5 30.5.
Proof.
  unfold c30_5. pose proof (fin_div 24 128 _ _ _ _ (of_Z_fin 61 ltac:(lia)) (of_Z_fin 2 ltac:(lia)) ltac:(lra)) as H.
  assert (E : 61 / 2 = IZR 61 * bpow radix2 (-1)) by (change (bpow radix2 (-1)) with (/ 2); lra).
  assert (F : fmt24 (61 / 2)).
  { rewrite E. change 61 with (F2R (Float radix2 61 0)) at 1 || idtac.
    apply (generic_format_FLT radix2 (-149) 24). exists (Float radix2 61 (-1)); [unfold F2R; cbn [Fnum Fexp]; reflexivity|cbn; lia|cbn; lia]. }
  rewrite rnd_fix in H by (try typeclasses eauto; exact F). replace 30.5 with (61 / 2) by lra. apply H.
  apply below_huge. split; [lra|]. apply Rle_trans with (IZR (2 ^ 120)); [|rewrite b_pos; lra]. apply Rle_trans with 64; [lra|]. apply IZR_le. lia.
Qed.
Lemma c365_25_fin : fin24 c365_25 365.25.
Proof.
  unfold c365_25. pose proof (fin_div 24 128 _ _ _ _ (of_Z_fin 1461 ltac:(lia)) (of_Z_fin 4 ltac:(lia)) ltac:(lra)) as H.
  assert (E : 1461 / 4 = IZR 1461 * bpow radix2 (-2)) by (change (bpow radix2 (-2)) with (/ 4); lra).
  assert (F : fmt24 (1461 / 4)).
  { rewrite E. apply (generic_format_FLT radix2 (-149) 24). exists (Float radix2 1461 (-2)); [unfold F2R; cbn [Fnum Fexp]; reflexivity|cbn; lia|cbn; lia]. }
  rewrite rnd_fix in H by (try typeclasses eauto; exact F). replace 365.25 with (1461 / 4) by lra. apply H.
  apply below_huge. split; [lra|]. apply Rle_trans with (IZR (2 ^ 120)); [|rewrite b_pos; lra]. apply Rle_trans with 512; [lra|]. apply IZR_le. lia.
Qed.
Lemma mul_exact : forall x a n m k, fin24 x a -> a * IZR n = IZR m * bpow radix2 k -> (0 < n <= 2 ^ 24)%Z -> (0 < m < 2 ^ 24)%Z -> (0 <= k < 20)%Z ->
  fin24 (gmul x (gof_Z n)) (a * IZR n).
Proof.
  intros x a n m k F E Hn Hm Hk.
  pose proof (fin_mul 24 128 _ _ _ _ F (of_Z_fin n ltac:(lia))) as H.
  assert (G : fmt24 (a * IZR n)).
  { rewrite E. apply (generic_format_FLT radix2 (-149) 24). exists (Float radix2 m k); [unfold F2R; cbn [Fnum Fexp]; reflexivity|cbn [Fnum]; change (radix2 ^ 24)%Z with (2 ^ 24)%Z; lia|cbn [Fexp]; lia]. }
  rewrite rnd_fix in H by (try typeclasses eauto; exact G). apply H. rewrite E. apply below_huge.
  assert (M : 0 < IZR m < IZR (2 ^ 24)) by (split; apply IZR_lt; lia). rewrite <- b_pos in M. pose proof (bpow_gt_0 radix2 k).
  assert (B : bpow radix2 k <= bpow radix2 20) by (apply bpow_le; lia). split; [apply Rmult_le_pos; lra|].
  apply Rle_trans with (bpow radix2 24 * bpow radix2 20); [apply Rmult_le_compat; lra|]. rewrite <- bpow_plus. apply bpow_le. lia.
Qed.
Lemma c_hours : fin24 (gmul c365_25 (gof_Z 24)) (365.25 * 24).
Proof. apply (mul_exact _ _ 24 8766 0 c365_25_fin); try lia. change (bpow radix2 0) with 1. lra. Qed.
Lemma c_minutes : fin24 (gmul (gmul c365_25 (gof_Z 24)) (gof_Z 60)) (365.25 * 24 * 60).
Proof. apply (mul_exact _ _ 60 525960 0 c_hours); try lia. change (bpow radix2 0) with 1. lra. Qed.
Lemma c_seconds : fin24 (gmul (gmul (gmul c365_25 (gof_Z 24)) (gof_Z 60)) (gof_Z 60)) (365.25 * 24 * 60 * 60).
Proof. apply (mul_exact _ _ 60 986175 5 c_minutes); try lia. change (bpow radix2 5) with 32. lra. Qed.

(** big enough not to underflow, small enough not to overflow *)
Definition medium (x : R) : Prop := x = 0 \/ bpow radix2 (-60) <= x <= bpow radix2 110.
Lemma medium_rel : forall x, medium x -> rel 1 (r24 x) x.
Proof.
  intros x [->|H]; apply r24_rel; [left; reflexivity|right]. apply Rle_trans with (2 := proj1 H). apply bpow_le. lia.
Qed.
Lemma medium_huge : forall x, medium x -> Rabs x <= huge 128.
Proof.
  intros x [->|H]; apply below_huge; [split; [lra|apply bpow_ge_0]|]. pose proof (bpow_gt_0 radix2 (-60)).
  split; [lra|]. apply Rle_trans with (1 := proj2 H). apply bpow_le. lia.
Qed.
Lemma medium_of : forall k x v, rel k v x -> (k <= 20)%nat -> 0 = x \/ bpow radix2 (-59) <= x <= bpow radix2 109 -> medium v.
Proof.
  intros k x v R K [<-|H]; [left; exact (rel_zero _ _ R)|right].
  assert (U : (1 + eps) ^ k <= 2) by (apply up_2; apply Rle_trans with (INR 20); [apply le_INR; lia|cbn; lra]).
  assert (D : / 2 <= (1 - eps) ^ k).
  { assert (G : forall j, 1 - INR j * eps <= (1 - eps) ^ j).
    { induction j as [|j IH]; [cbn; lra|]. rewrite S_INR. cbn [pow]. pose proof eps_pos. pose proof (pos_INR j). pose proof (down_le1 j).
      assert ((1 - eps) ^ j * eps <= 1 * eps) by (apply Rmult_le_compat_r; lra). lra. }
    specialize (G k). assert (INR k <= 20) by (apply Rle_trans with (INR 20); [apply le_INR; lia|cbn; lra]).
    assert (INR k * eps <= 20 * eps) by (pose proof eps_pos; apply Rmult_le_compat_r; lra). unfold eps in *. lra. }
  destruct R as [R1 R2]. pose proof (bpow_gt_0 radix2 (-59)) as P0.
  assert (X1 : bpow radix2 (-59) = 2 * bpow radix2 (-60)) by (change (-59)%Z with (1 + -60)%Z; rewrite bpow_plus; change (bpow radix2 1) with 2; ring).
  assert (X2 : bpow radix2 110 = 2 * bpow radix2 109) by (change 110%Z with (1 + 109)%Z; rewrite bpow_plus; change (bpow radix2 1) with 2; ring).
  assert (x * / 2 <= x * (1 - eps) ^ k) by (apply Rmult_le_compat_l; lra).
  assert (x * (1 + eps) ^ k <= x * 2) by (apply Rmult_le_compat_l; lra). lra.
Qed.
Lemma of_Z_rel : forall n, (0 <= n)%Z -> IZR n <= bpow radix2 100 -> exists v, fin24 (gof_Z n) v /\ rel 1 v (IZR n).
Proof.
  intros n P H. exists (r24 (IZR n)). assert (M : medium (IZR n)).
  { destruct (Z.eq_dec n 0) as [->|N]; [left; reflexivity|right]. split.
    - apply Rle_trans with 1; [change 1 with (bpow radix2 0); apply bpow_le; lia|apply IZR_le; lia].
    - apply Rle_trans with (1 := H). apply bpow_le. lia. }
  split; [apply fin_of_Z, medium_huge, M|apply medium_rel, M].
Qed.

Lemma div_rel : forall k x v t y b, fin24 x v -> fin24 y b -> rel k v t -> (k <= 10)%nat -> 1 <= b <= 40000000 ->
  0 = t \/ 1 <= t <= bpow radix2 105 -> exists w, fin24 (gdiv x y) w /\ rel (S k) w (t / b).
Proof.
  intros k x v t y b Fx Fy R K B T. exists (r24 (v / b)).
  assert (I : 0 < / b) by (apply Rinv_0_lt_compat; lra).
  assert (R' : rel k (v / b) (t / b)) by (apply rel_scale; [lra|exact R]).
  assert (IB : / 40000000 <= / b <= 1).
  { split; [apply Rinv_le_contravar; lra|]. rewrite <- Rinv_1. apply Rinv_le_contravar; lra. }
  assert (M : medium (v / b)).
  { apply (medium_of k (t / b)); [exact R'|lia|]. destruct T as [<-|T]; [left; unfold Rdiv; ring|right]. unfold Rdiv. split.
    - apply Rle_trans with (1 * / 40000000); [|apply Rmult_le_compat; lra].
      apply Rle_trans with (bpow radix2 (-30)); [apply bpow_le; lia|]. change (bpow radix2 (-30)) with (/ 1073741824). lra.
    - apply Rle_trans with (t * 1); [apply Rmult_le_compat_l; lra|]. rewrite Rmult_1_r. apply Rle_trans with (1 := proj2 T). apply bpow_le. lia. }
  split; [apply fin_div; [exact Fx|exact Fy|lra|apply medium_huge, M]|].
  change (S k) with (1 + k)%nat. apply rel_trans with (v / b); [|apply medium_rel, M|exact R'].
  destruct T as [<-|T]; unfold Rdiv; [lra|]. apply Rmult_le_pos; lra.
Qed.
Lemma mul_rel : forall k x v t y b, fin24 x v -> fin24 y b -> rel k v t -> (k <= 10)%nat -> 1 <= b <= 31 ->
  0 = t \/ 1 <= t <= bpow radix2 100 -> exists w, fin24 (gmul x y) w /\ rel (S k) w (t * b) /\ (0 = t * b \/ 1 <= t * b <= bpow radix2 105).
Proof.
  intros k x v t y b Fx Fy R K B T. exists (r24 (v * b)).
  assert (R' : rel k (v * b) (t * b)) by (apply rel_scale; [lra|exact R]).
  assert (Q : 0 = t * b \/ 1 <= t * b <= bpow radix2 105).
  { destruct T as [<-|T]; [left; ring|right]. split.
    - rewrite <- (Rmult_1_r 1). apply Rmult_le_compat; lra.
    - change 105%Z with (100 + 5)%Z. rewrite bpow_plus. change (bpow radix2 5) with 32. apply Rmult_le_compat; lra. }
  assert (M : medium (v * b)).
  { apply (medium_of k (t * b)); [exact R'|lia|]. destruct Q as [Q|Q]; [left; exact Q|right]. split.
    - apply Rle_trans with (2 := proj1 Q). change 1 with (bpow radix2 0). apply bpow_le. lia.
    - apply Rle_trans with (1 := proj2 Q). apply bpow_le. lia. }
  split; [apply fin_mul; [exact Fx|exact Fy|apply medium_huge, M]|]. split; [|exact Q].
  change (S k) with (1 + k)%nat. apply rel_trans with (v * b); [destruct Q; lra|apply medium_rel, M|exact R'].
Qed.

Lemma capture_rel : forall n u, (0 <= n)%Z -> IZR n <= bpow radix2 100 ->
  exists v, fin24 (years_of_capture (gof_Z n) u) v /\ rel 3 v (IZR n * years_in u).
Proof.
  intros n u P H. destruct (of_Z_rel n P H) as (v & F & R).
  assert (T : 0 = IZR n \/ 1 <= IZR n <= bpow radix2 100).
  { destruct (Z.eq_dec n 0) as [->|N]; [left; reflexivity|right]. split; [apply IZR_le; lia|exact H]. }
  assert (T' : 0 = IZR n \/ 1 <= IZR n <= bpow radix2 105).
  { destruct T as [T|T]; [left; exact T|right]. split; [apply T|]. apply Rle_trans with (1 := proj2 T). apply bpow_le. lia. }
  assert (N0 : 0 <= IZR n) by (destruct T; lra).
  assert (Y0 : 0 <= IZR n * years_in u) by (apply Rmult_le_pos; [exact N0|destruct u; cbn [years_in]; lra]).
  destruct u; cbn [years_of_capture years_in] in *.
  - exists v. split; [exact F|]. rewrite Rmult_1_r. apply rel_more with 1%nat; [exact N0|lia|exact R].
  - destruct (mul_rel 1 _ _ _ _ _ F c30_5_fin R ltac:(lia) ltac:(lra) T) as (w & Fw & Rw & Tw).
    destruct (div_rel 2 _ _ _ _ _ Fw c365_25_fin Rw ltac:(lia) ltac:(lra) Tw) as (z & Fz & Rz). exists z. split; [exact Fz|].
    replace (IZR n * (30.5 / 365.25)) with (IZR n * 30.5 / 365.25) by lra. exact Rz.
  - destruct (mul_rel 1 _ _ _ _ _ F (of_Z_fin 7 ltac:(lia)) R ltac:(lia) ltac:(lra) T) as (w & Fw & Rw & Tw).
    destruct (div_rel 2 _ _ _ _ _ Fw c365_25_fin Rw ltac:(lia) ltac:(lra) Tw) as (z & Fz & Rz). exists z. split; [exact Fz|].
    replace (IZR n * (7 / 365.25)) with (IZR n * 7 / 365.25) by lra. exact Rz.
  - destruct (div_rel 1 _ _ _ _ _ F c365_25_fin R ltac:(lia) ltac:(lra) T') as (z & Fz & Rz). exists z. split; [exact Fz|].
    apply rel_more with 2%nat; [exact Y0|lia|]. replace (IZR n * (1 / 365.25)) with (IZR n / 365.25) by lra. exact Rz.
  - destruct (div_rel 1 _ _ _ _ _ F c_hours R ltac:(lia) ltac:(lra) T') as (z & Fz & Rz). exists z. split; [exact Fz|].
    apply rel_more with 2%nat; [exact Y0|lia|]. replace (IZR n * (1 / (365.25 * 24))) with (IZR n / (365.25 * 24)) by lra. exact Rz.
  - destruct (div_rel 1 _ _ _ _ _ F c_minutes R ltac:(lia) ltac:(lra) T') as (z & Fz & Rz). exists z. split; [exact Fz|].
    apply rel_more with 2%nat; [exact Y0|lia|]. replace (IZR n * (1 / (365.25 * 24 * 60))) with (IZR n / (365.25 * 24 * 60)) by lra. exact Rz.
  - destruct (div_rel 1 _ _ _ _ _ F c_seconds R ltac:(lia) ltac:(lra) T') as (z & Fz & Rz). exists z. split; [exact Fz|].
    apply rel_more with 2%nat; [exact Y0|lia|]. replace (IZR n * (1 / (365.25 * 24 * 60 * 60))) with (IZR n / (365.25 * 24 * 60 * 60)) by lra. exact Rz.
Qed.

(** ** The sum *)
Lemma exact_nonneg : forall p, well_formed p -> 0 <= exact_years p.
Proof.
  induction p as [|[ds u] p IH]; intro W; cbn [exact_years]; [lra|]. inversion W as [|? ? [_ F] Wp]; subst. specialize (IH Wp). cbn [fst] in F.
  assert (0 <= IZR (value_of ds) * years_in u); [|lra].
  apply Rmult_le_pos; [apply IZR_le, value_nonneg, F|destruct u; cbn [years_in]; lra].
Qed.
Lemma years_in_pos : forall u, / 40000000 <= years_in u <= 1.
Proof. destruct u; cbn [years_in]; lra. Qed.
(** the sum is 0 or at least a second *)
Lemma exact_gap : forall p, well_formed p -> exact_years p = 0 \/ / 40000000 <= exact_years p.
Proof.
  induction p as [|[ds u] p IH]; intro W; cbn [exact_years]; [left; reflexivity|]. inversion W as [|? ? [_ F] Wp]; subst. cbn [fst] in F.
  pose proof (exact_nonneg p Wp). specialize (IH Wp). pose proof (years_in_pos u). pose proof (value_nonneg ds F) as P.
  destruct (Z.eq_dec (value_of ds) 0) as [->|N]; [rewrite Rmult_0_l, Rplus_0_l; exact IH|right].
  assert (1 <= IZR (value_of ds)) by (apply IZR_le; lia).
  assert (1 * / 40000000 <= IZR (value_of ds) * years_in u) by (apply Rmult_le_compat; lra). lra.
Qed.

Lemma sum_rel : forall p k r x t, well_formed p -> INR (k + List.length p) <= 8388000 -> fin24 r x -> rel (k + 3) x t ->
  t = 0 \/ / 40000000 <= t -> t + exact_years p <= bpow radix2 70 ->
  exists v, fin24 (fold_left (fun r x => gadd r (years_of_capture (gof_Z (number (fst x))) (snd x))) p r) v /\
    rel (k + List.length p + 3) v (t + exact_years p).
Proof.
  induction p as [|[ds u] p IH]; intros k r x t W L F R T B.
  - cbn [fold_left exact_years List.length] in *. exists x. split; [exact F|]. rewrite Rplus_0_r, Nat.add_0_r. exact R.
  - inversion W as [|? ? [Wd D] Wp]; subst. cbn [fst] in *. cbn [fold_left exact_years List.length fst snd] in *.
    pose proof (value_nonneg ds D) as P. pose proof (exact_nonneg p Wp) as E0. pose proof (years_in_pos u) as Y.
    assert (V0 : 0 <= IZR (value_of ds)) by (apply IZR_le; exact P).
    assert (Y0 : 0 <= IZR (value_of ds) * years_in u) by (apply Rmult_le_pos; lra).
    assert (T0 : 0 <= t) by (destruct T; lra).
    assert (VB : IZR (value_of ds) <= bpow radix2 100).
    { assert (IZR (value_of ds) * / 40000000 <= IZR (value_of ds) * years_in u) by (apply Rmult_le_compat_l; lra).
      assert (IZR (value_of ds) <= 40000000 * bpow radix2 70) by lra.
      apply Rle_trans with (40000000 * bpow radix2 70); [lra|]. change 100%Z with (30 + 70)%Z. rewrite bpow_plus. apply Rmult_le_compat_r; [apply bpow_ge_0|].
      change (bpow radix2 30) with 1073741824. lra. }
    rewrite number_value. destruct (capture_rel (value_of ds) u P VB) as (w & Fw & Rw).
    assert (Rs : rel (k + 3) (x + w) (t + IZR (value_of ds) * years_in u)).
    { apply rel_plus; [exact R|]. apply rel_more with 3%nat; [exact Y0|lia|exact Rw]. }
    set (t' := t + IZR (value_of ds) * years_in u) in *.
    assert (T' : t' = 0 \/ / 40000000 <= t').
    { unfold t'. destruct T as [->|T]; [|right; lra]. destruct (Z.eq_dec (value_of ds) 0) as [->|N]; [left; ring|right].
      assert (1 <= IZR (value_of ds)) by (apply IZR_le; lia).
      assert (1 * / 40000000 <= IZR (value_of ds) * years_in u) by (apply Rmult_le_compat; lra). lra. }
    assert (B' : t' <= bpow radix2 70) by (unfold t'; lra).
    assert (U : (1 + eps) ^ (k + 3) <= 2).
    { apply up_2. rewrite plus_INR in *. rewrite S_INR in L. pose proof (pos_INR (List.length p)). cbn [INR]. lra. }
    assert (M : x + w = 0 \/ bpow radix2 (-100) <= x + w).
    { destruct T' as [T'|T']; [left; rewrite T' in Rs; exact (rel_zero _ _ Rs)|right].
      destruct Rs as [R1 _]. assert (Dn : / 2 <= (1 - eps) ^ (k + 3)).
      { assert (G : forall j, 1 - INR j * eps <= (1 - eps) ^ j).
        { induction j as [|j IHj]; [cbn; lra|]. rewrite S_INR. cbn [pow]. pose proof eps_pos. pose proof (pos_INR j). pose proof (down_le1 j).
          assert ((1 - eps) ^ j * eps <= 1 * eps) by (apply Rmult_le_compat_r; lra). lra. }
        specialize (G (k + 3)%nat). rewrite plus_INR in *. rewrite S_INR in L. pose proof (pos_INR (List.length p)). cbn [INR] in G.
        assert ((INR k + (1 + 1 + 1)) * eps <= 8388608 * eps) by (pose proof eps_pos; apply Rmult_le_compat_r; lra). unfold eps in *. lra. }
      assert (/ 40000000 * / 2 <= t' * (1 - eps) ^ (k + 3)) by (apply Rmult_le_compat; lra).
      apply Rle_trans with (bpow radix2 (-30)); [apply bpow_le; lia|]. change (bpow radix2 (-30)) with (/ 1073741824). lra. }
    assert (X2 : x + w <= bpow radix2 71).
    { destruct Rs as [_ R2]. change 71%Z with (70 + 1)%Z. rewrite bpow_plus. change (bpow radix2 1) with 2. apply Rle_trans with (1 := R2).
      pose proof (up_ge1 (k + 3)). assert (0 <= t') by (destruct T'; lra). apply Rmult_le_compat; lra. }
    assert (Fn : fin24 (gadd r (years_of_capture (gof_Z (value_of ds)) u)) (r24 (x + w))).
    { apply fin_add; [exact F|exact Fw|]. apply below_huge. split; [destruct M as [M|M]; [lra|pose proof (bpow_gt_0 radix2 (-100)); lra]|].
      apply Rle_trans with (1 := X2). apply bpow_le. lia. }
    assert (L' : INR (S k + List.length p) <= 8388000) by (replace (S k + List.length p)%nat with (k + S (List.length p))%nat by lia; exact L).
    assert (R1 : rel (S k + 3) (r24 (x + w)) t').
    { replace (S k + 3)%nat with (1 + (k + 3))%nat by lia. apply rel_trans with (x + w); [destruct T'; lra|apply r24_rel; exact M|exact Rs]. }
    destruct (IH (S k) _ _ t' Wp L' Fn R1 T' ltac:(unfold t'; lra)) as (v & Fv & Rv).
    exists v. split; [exact Fv|]. replace (k + S (List.length p) + 3)%nat with (S k + List.length p + 3)%nat by lia.
    rewrite <- Rplus_assoc. exact Rv.
Qed.

(** ** C102 *)
Theorem c102_period_in_years : forall p, well_formed p -> p <> [] -> INR (List.length p) <= 8388000 -> exact_years p <= 2 ^ 70 ->
  exists x v, from_period_string_to_float (written p) = ROk x /\ fin 24 128 x v /\
    exact_years p * (1 - / 2 ^ 24) ^ (List.length p + 3) <= v <= exact_years p * (1 + / 2 ^ 24) ^ (List.length p + 3).
Proof.
  intros p W N L B. unfold from_period_string_to_float. rewrite captures_written by exact W.
  destruct (sum_rel p 0 gzero 0 0 W) as (v & F & R).
  - exact L.
  - apply fin_zero.
  - unfold rel. rewrite !Rmult_0_l. lra.
  - left. reflexivity.
  - rewrite Rplus_0_l. apply Rle_trans with (1 := B). rewrite (pow_IZR 2 70). apply Rle_refl.
  - rewrite Rplus_0_l in R. destruct p as [|x p]; [congruence|]. eexists. exists v. split; [reflexivity|]. split; [exact F|].
    replace (/ 2 ^ 24) with eps by (unfold eps; rewrite (pow_IZR 2 24); reflexivity). exact R.
Qed.
(** an error exactly if there is no number followed by a unit *)
Theorem c102_error : forall s, from_period_string_to_float s = RErr <-> ~ has_period s.
Proof.
  intro s. rewrite <- captures_none. unfold from_period_string_to_float. destruct (captures all_units s) as [|x cs]; split; intro H; auto; discriminate H.
Qed.
Example c102_hypotheses_met : well_formed [(str "1", UY); (str "6", UM)] /\ exact_years [(str "1", UY); (str "6", UM)] <= 2 ^ 70 /\
  exact_years [(str "1", UY); (str "6", UM)] = 1 + 6 * (30.5 / 365.25).
Proof.
  assert (E : exact_years [(str "1", UY); (str "6", UM)] = 1 + 6 * (30.5 / 365.25)).
  { cbn [exact_years years_in]. change (value_of (str "1")) with 1%Z. change (value_of (str "6")) with 6%Z. lra. }
  split; [|split; [|exact E]].
  - repeat (apply Forall_cons || apply Forall_nil); cbn; (split; [discriminate|]); repeat constructor; cbn; lia.
  - rewrite E. rewrite (pow_IZR 2 70). apply Rle_trans with 100; [lra|]. apply IZR_le. vm_compute. discriminate.
Qed.
Print Assumptions c102_period_in_years.
Print Assumptions c102_error.
