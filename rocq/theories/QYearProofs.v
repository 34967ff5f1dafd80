(** QYearProofs.v -- rounding errors of the day counts. *)
From Coq Require Import ZArith List Bool Reals Lia Lra.
From Flocq Require Import Core.
From Flocq Require Import IEEE754.BinarySingleNaN.
From Verif Require Import Base CivilSpec FloatModel FloatFacts QDateModel QDateProofs QCalModel QCalSpec QYearModel.
Import ListNotations.
Open Scope R_scope.

Notation r24 := (rnd 24 128).
Notation r53 := (rnd 53 1024).
Notation fin24 := (fin 24 128).
Notation fin53 := (fin 53 1024).
Notation fmt24 := (generic_format radix2 (SpecFloat.fexp 24 128)).

Lemma b_pos : forall p, bpow radix2 (Z.pos p) = IZR (2 ^ Z.pos p).
Proof. intro p. exact (eq_sym (IZR_Zpower radix2 (Z.pos p) ltac:(lia))). Qed.

Lemma conv_fin : forall x r, fin53 x r -> Rabs r <= huge 128 -> fin24 (f32_of_f64 x) (r24 r).
Proof.
  intros x r [F <-] H. destruct x as [sg|sg| |sg m e He]; try discriminate F.
  - cbn [B2R f32_of_f64]. rewrite rnd_0. split; reflexivity.
  - cbn [f32_of_f64]. pose proof (binary_normalize_correct 24 128 p24 e128 mode_NE (SpecFloat.cond_Zopp sg (Zpos m)) e sg) as C.
    cbn zeta in C. cbn [B2R] in *. set (v := F2R _) in *. cbn [round_mode] in C.
    change (round radix2 (SpecFloat.fexp 24 128) ZnearestE v) with (r24 v) in C.
    rewrite Rlt_bool_true in C by (apply rnd_huge; [exact p24|exact e128|exact H]). destruct C as (C1 & C2 & _). split; assumption.
Qed.

(** ** adding one, again and again *)
Lemma fmt_grid : forall k r, (-100 <= k <= 100)%Z -> fmt24 r -> bpow radix2 k <= r ->
  exists m, r = IZR m * bpow radix2 (k - 23).
Proof.
  intros k r Hk F Hr.
  set (c := cexp radix2 (SpecFloat.fexp 24 128) r).
  assert (Hc : (k - 23 <= c)%Z).
  { subst c. unfold cexp. pose proof (mag_ge_bpow radix2 r (k + 1)) as M.
    replace (k + 1 - 1)%Z with k in M by lia. rewrite Rabs_pos_eq in M by (pose proof (bpow_ge_0 radix2 k); lra).
    specialize (M Hr). change (k - 23 <= FLT_exp (SpecFloat.emin 24 128) 24 (mag radix2 r))%Z. unfold FLT_exp. lia. }
  set (m := Ztrunc (scaled_mantissa radix2 (SpecFloat.fexp 24 128) r)).
  assert (E : r = IZR m * bpow radix2 c) by exact F. clearbody m c.
  exists (m * 2 ^ (c - (k - 23)))%Z. rewrite mult_IZR, Rmult_assoc. rewrite E. f_equal.
  assert (P : IZR (2 ^ (c - (k - 23))) = bpow radix2 (c - (k - 23))) by (exact (IZR_Zpower radix2 (c - (k - 23)) ltac:(lia))).
  rewrite P, <- bpow_plus. f_equal. lia.
Qed.

Lemma fmt_plus_1 : forall k r, (0 <= k <= 20)%Z -> fmt24 r -> bpow radix2 k <= r -> r + 1 <= bpow radix2 (k + 1) -> fmt24 (r + 1).
Proof.
  intros k r Hk F H1 H2. destruct (Rle_lt_or_eq_dec _ _ H2) as [L|E].
  - destruct (fmt_grid k r ltac:(lia) F H1) as (m & E).
    assert (E' : r + 1 = F2R (Float radix2 (m + 2 ^ (23 - k)) (k - 23))).
    { unfold F2R. cbn [Fnum Fexp]. rewrite plus_IZR.
      assert (P : IZR (2 ^ (23 - k)) = bpow radix2 (23 - k)) by (exact (IZR_Zpower radix2 (23 - k) ltac:(lia))).
      rewrite P, Rmult_plus_distr_r, <- E, <- bpow_plus. f_equal. replace (23 - k + (k - 23))%Z with 0%Z by lia. reflexivity. }
    rewrite E'. apply (generic_format_FLT radix2 (SpecFloat.emin 24 128) 24).
    exists (Float radix2 (m + 2 ^ (23 - k)) (k - 23)); cbn [Fnum Fexp]; [reflexivity| |change (SpecFloat.emin 24 128) with (-149)%Z; lia].
    assert (A : 0 <= IZR (m + 2 ^ (23 - k)) < IZR (2 ^ 24)).
    { assert (P : IZR (2 ^ 24) = bpow radix2 24) by (exact (IZR_Zpower radix2 24 ltac:(lia))).
      rewrite P. unfold F2R in E'. cbn [Fnum Fexp] in E'.
      pose proof (bpow_gt_0 radix2 (k - 23)) as Q. pose proof (bpow_gt_0 radix2 k) as Q0.
      rewrite E' in L. replace (k + 1)%Z with (24 + (k - 23))%Z in L by lia. rewrite bpow_plus in L. split.
      - apply Rmult_le_reg_r with (1 := Q). lra.
      - apply Rmult_lt_reg_r with (1 := Q). exact L. }
    destruct A as [A1 A2]. apply le_IZR in A1. apply lt_IZR in A2. change (radix2 ^ 24)%Z with (2 ^ 24)%Z. lia.
  - rewrite E. apply fmt_bpow; try typeclasses eauto. change (SpecFloat.emin 24 128) with (-149)%Z. lia.
Qed.

(** [r], a float, is near [t] *)
Definition near (r t : R) : Prop := fmt24 r /\ exists k, (-1 <= k <= 20)%Z /\
  bpow radix2 k <= r <= bpow radix2 (k + 1) /\ Rabs (r - t) <= bpow radix2 (k - 21).

Lemma fmt_rnd : forall x, fmt24 (r24 x).
Proof. intro x. apply generic_format_round; [apply (FLT_exp_valid (-149) 24)|auto with typeclass_instances]. Qed.

Ltac b_split := repeat match goal with |- context [bpow radix2 (?k + Zneg ?p)] => rewrite (bpow_plus radix2 k (Zneg p)) end.

Lemma near_step : forall r t, near r t -> r <= 100000 -> near (r24 (r + 1)) (t + 1).
Proof.
  intros r t (F & k & Hk & Hr & He) Hm. pose proof (bpow_gt_0 radix2 k) as K0.
  assert (B1 : bpow radix2 (k + 1) = 2 * bpow radix2 k) by (rewrite bpow_plus; change (bpow radix2 1) with 2; lra).
  assert (B2 : bpow radix2 (k + 2) = 4 * bpow radix2 k) by (rewrite bpow_plus; change (bpow radix2 2) with 4; lra).
  assert (Bm : bpow radix2 (k - 21) = bpow radix2 k / 2097152)
    by (replace (k - 21)%Z with (k + -21)%Z by lia; rewrite bpow_plus; change (bpow radix2 (-21)) with (/ 2097152); reflexivity).
  apply Rabs_le_inv in He.
  assert (Kh : (k <= 16)%Z).
  { destruct (Z.le_gt_cases k 16) as [|G]; [assumption|]. pose proof (bpow_le radix2 17 k ltac:(lia)) as L.
    change (bpow radix2 17) with 131072 in L. lra. }
  destruct (Rle_or_lt (r + 1) (bpow radix2 (k + 1))) as [L|L].
  - assert (K : (0 <= k)%Z).
    { destruct (Z.le_gt_cases 0 k) as [|G]; [assumption|]. replace k with (-1)%Z in * by lia.
      change (bpow radix2 (-1)) with (/ 2) in *. change (bpow radix2 (-1 + 1)) with 1 in *. lra. }
    pose proof (fmt_plus_1 k r ltac:(lia) F (proj1 Hr) L) as F1.
    rewrite rnd_fix by exact F1. split; [exact F1|]. exists k. split; [lia|]. split; [lra|]. apply Rabs_le. lra.
  - split; [apply fmt_rnd|]. exists (k + 1)%Z. split; [lia|].
    assert (K1 : 1 <= bpow radix2 (k + 1)) by (change 1 with (bpow radix2 0); apply bpow_le; lia).
    replace (k + 1 + 1)%Z with (k + 2)%Z by lia.
    assert (U : r + 1 <= bpow radix2 (k + 2)) by lra.
    assert (Fk : forall j, (-1 <= j <= 22)%Z -> r24 (bpow radix2 j) = bpow radix2 j).
    { intros j Hj. apply rnd_fix, fmt_bpow; try typeclasses eauto. change (SpecFloat.emin 24 128) with (-149)%Z. lia. }
    split.
    + split; [rewrite <- (Fk (k + 1)%Z) by lia|rewrite <- (Fk (k + 2)%Z) by lia]; (apply rnd_le; [typeclasses eauto|lra]).
    + pose proof (rnd_err 24 128 (k + 2) (r + 1)) as E. change (SpecFloat.emin 24 128) with (-149)%Z in E.
      specialize (E ltac:(lia)). rewrite Rabs_pos_eq in E by lra. specialize (E U).
      replace (k + 2 - 24 - 1)%Z with (k + -23)%Z in E by lia. rewrite bpow_plus in E. change (bpow radix2 (-23)) with (/ 8388608) in E.
      apply Rabs_le_inv in E. replace (k + 1 - 21)%Z with (k + -20)%Z by lia. rewrite bpow_plus. change (bpow radix2 (-20)) with (/ 1048576).
      apply Rabs_le. lra.
Qed.

Lemma near_first : forall v x, fmt24 v -> - (1 / 100) <= v <= 102 / 100 -> Rabs (v - x) <= 7 / 33554432 -> near (r24 (v + 1)) (x + 1).
Proof.
  intros v x F V E. split; [apply fmt_rnd|]. apply Rabs_le_inv in E.
  assert (Fk : forall j, (-1 <= j <= 22)%Z -> r24 (bpow radix2 j) = bpow radix2 j).
  { intros j Hj. apply rnd_fix, fmt_bpow; try typeclasses eauto. change (SpecFloat.emin 24 128) with (-149)%Z. lia. }
  assert (G : forall k, (-1 <= k <= 1)%Z -> bpow radix2 k <= v + 1 <= bpow radix2 (k + 1) ->
    bpow radix2 k <= r24 (v + 1) <= bpow radix2 (k + 1) /\ Rabs (r24 (v + 1) - (v + 1)) <= bpow radix2 (k - 24)).
  { intros k Hk [A B]. split.
    - split; [rewrite <- (Fk k) by lia|rewrite <- (Fk (k + 1)%Z) by lia]; (apply rnd_le; [typeclasses eauto|assumption]).
    - pose proof (rnd_err 24 128 (k + 1) (v + 1)) as Q. change (SpecFloat.emin 24 128) with (-149)%Z in Q.
      replace (k + 1 - 24 - 1)%Z with (k - 24)%Z in Q by lia. apply Q; [lia|]. rewrite Rabs_pos_eq; lra. }
  destruct (Rle_or_lt (v + 1) 1) as [L|L]; [|destruct (Rle_or_lt (v + 1) 2) as [L2|L2]].
  - exists (-1)%Z. destruct (G (-1)%Z ltac:(lia)) as [A B].
    { change (bpow radix2 (-1)) with (/ 2). change (bpow radix2 (-1 + 1)) with 1. lra. }
    split; [lia|]. split; [exact A|]. change (bpow radix2 (-1 - 24)) with (/ 33554432) in B.
    change (bpow radix2 (-1 - 21)) with (/ 4194304). apply Rabs_le_inv in B. apply Rabs_le. lra.
  - exists 0%Z. destruct (G 0%Z ltac:(lia)) as [A B].
    { change (bpow radix2 0) with 1. change (bpow radix2 (0 + 1)) with 2. lra. }
    split; [lia|]. split; [exact A|]. change (bpow radix2 (0 - 24)) with (/ 16777216) in B.
    change (bpow radix2 (0 - 21)) with (/ 2097152). apply Rabs_le_inv in B. apply Rabs_le. lra.
  - exists 1%Z. destruct (G 1%Z ltac:(lia)) as [A B].
    { change (bpow radix2 1) with 2. change (bpow radix2 (1 + 1)) with 4. lra. }
    split; [lia|]. split; [exact A|]. change (bpow radix2 (1 - 24)) with (/ 8388608) in B.
    change (bpow radix2 (1 - 21)) with (/ 1048576). apply Rabs_le_inv in B. apply Rabs_le. lra.
Qed.

(** ** the loop over years *)
Lemma huge_128 : huge 128 = IZR (2 ^ 127).
Proof. unfold huge. change (128 - 1)%Z with 127%Z. apply b_pos. Qed.
Ltac small := change (huge 128) with (bpow radix2 127); apply Rle_trans with (IZR (2 ^ 30)); [|rewrite b_pos; apply IZR_le; lia].

Lemma one_fin : fin24 (gof_Z 1) 1.
Proof.
  pose proof (fin_of_Z 24 128 1) as H. rewrite rnd_int in H by (try typeclasses eauto; lia). apply H.
  small. rewrite Rabs_pos_eq; [apply IZR_le; lia|lra].
Qed.

Lemma loop_app : forall n m part y x,
  year_loop (n + m) part y x = let! z := year_loop n part y x in year_loop m part (y + Z.of_nat n) z.
Proof.
  induction n as [|n IH]; intros m part y x.
  - cbn [Nat.add year_loop obind]. f_equal. lia.
  - cbn [Nat.add year_loop]. destruct (part y); cbn [obind]; try reflexivity. rewrite IH.
    replace (y + 1 + Z.of_nat n)%Z with (y + Z.of_nat (S n))%Z by lia. reflexivity.
Qed.

Lemma near_bounds : forall r t, near r t -> 0 < r /\ r <= t + 1.
Proof.
  intros r t (_ & k & Hk & Hr & He). apply Rabs_le_inv in He. pose proof (bpow_gt_0 radix2 k).
  assert (bpow radix2 (k - 21) <= 1) by (change 1 with (bpow radix2 0); apply bpow_le; lia). lra.
Qed.

Lemma ones_loop : forall n part y x r t, fin24 x r -> near r t -> t + INR n <= 90000 ->
  (forall i, (y <= i < y + Z.of_nat n)%Z -> part i = Ret (gof_Z 1)) ->
  exists z v, year_loop n part y x = Ret z /\ fin24 z v /\ near v (t + INR n).
Proof.
  induction n as [|n IH]; intros part y x r t Fx N Hb Hp.
  - exists x, r. cbn [INR year_loop]. rewrite Rplus_0_r. auto.
  - cbn [year_loop]. rewrite Hp by lia. cbn [obind]. rewrite S_INR in *. pose proof (pos_INR n).
    destruct (near_bounds r t N) as [R0 R1].
    assert (Fa : fin24 (gadd x (gof_Z 1)) (r24 (r + 1))).
    { apply fin_add; [exact Fx|exact one_fin|]. small. rewrite Rabs_pos_eq by lra. apply Rle_trans with (IZR 100000); [lra|apply IZR_le; lia]. }
    destruct (IH part (y + 1)%Z _ _ (t + 1) Fa (near_step r t N ltac:(lra)) ltac:(lra)) as (z & v & A & B & C).
    { intros i Hi. apply Hp. lia. }
    exists z, v. split; [exact A|]. split; [exact B|]. replace (t + (INR n + 1)) with (t + 1 + INR n) by lra. exact C.
Qed.

Lemma add_zero : forall p v, fin24 p v -> Rabs v <= 100 -> fin24 (gadd gzero p) v.
Proof.
  intros p v F H. pose proof (fin_add 24 128 gzero p 0 v (fin_zero _ _) F) as A. rewrite Rplus_0_l in A.
  rewrite (fin_rnd 24 128 p v F) in A. apply A. small. apply Rle_trans with (1 := H). apply IZR_le. lia.
Qed.

(** the parts of the first and last year, and a one for each year between *)
Lemma over_years_close : forall part ys ye p0 p1 v0 v1 x0 x1, (ys < ye)%Z -> (ye - ys <= 20000)%Z ->
  part ys = Ret p0 -> fin24 p0 v0 -> Rabs (v0 - x0) <= 7 / 33554432 -> - (1 / 100) <= v0 <= 102 / 100 ->
  part ye = Ret p1 -> fin24 p1 v1 -> Rabs (v1 - x1) <= 7 / 33554432 -> - (1 / 100) <= v1 <= 102 / 100 ->
  (forall y, (ys < y < ye)%Z -> part y = Ret (gof_Z 1)) ->
  exists z v, over_years part ys ye = Ret z /\ fin24 z v /\
    Rabs (v - (x0 + IZR (ye - ys - 1) + x1)) <= IZR (ye - ys + 1) / 1048576.
Proof.
  intros part ys ye p0 p1 v0 v1 x0 x1 Hlt Hle P0 F0 E0 V0 P1 F1 E1 V1 Pm.
  unfold over_years.
  assert (N : exists n, Z.to_nat (ye - ys + 1) = (S n + 1)%nat /\ Z.of_nat n = (ye - ys - 1)%Z)
    by (exists (Z.to_nat (ye - ys - 1)); lia).
  destruct N as (n & -> & Hn). rewrite loop_app. cbn [year_loop]. rewrite P0. cbn [obind].
  pose proof (add_zero p0 v0 F0 ltac:(apply Rabs_le; lra)) as G0. set (g := gadd gzero p0) in *. clearbody g.
  apply Rabs_le_inv in E0. apply Rabs_le_inv in E1.
  assert (Last : forall z v, year_loop n part (ys + 1) g = Ret z -> fin24 z v -> 0 - 1/100 <= v <= 95000 ->
     exists z', (let! z0 := year_loop n part (ys + 1) g in
       let! p := part (ys + Z.of_nat (S n))%Z in year_loop 0 part (ys + Z.of_nat (S n) + 1) (gadd z0 p)) = Ret z' /\
       fin24 z' (r24 (v + v1))).
  { intros z v Zz F B. rewrite Zz. cbn [obind]. replace (ys + Z.of_nat (S n))%Z with ye by lia. rewrite P1. cbn [obind year_loop].
    eexists. split; [reflexivity|]. apply fin_add; [exact F|exact F1|]. small. apply Rle_trans with 96000; [apply Rabs_le; lra|apply IZR_le; lia]. }
  rewrite <- Hn. replace (ye - ys + 1)%Z with (Z.of_nat n + 2)%Z by lia. rewrite plus_IZR. rewrite <- INR_IZR_INZ.
  destruct n as [|n].
  - destruct (Last g v0 eq_refl G0 ltac:(lra)) as (z' & A & B). exists z', (r24 (v0 + v1)). split; [exact A|]. split; [exact B|].
    pose proof (rnd_err 24 128 2 (v0 + v1)) as Q. change (SpecFloat.emin 24 128) with (-149)%Z in Q. specialize (Q ltac:(lia)).
    change (bpow radix2 2) with 4 in Q. specialize (Q ltac:(apply Rabs_le; lra)).
    change (bpow radix2 (2 - 24 - 1)) with (/ 8388608) in Q. apply Rabs_le_inv in Q. cbn [INR]. apply Rabs_le. lra.
  - assert (Hb : INR n <= 20000) by (rewrite INR_IZR_INZ; apply IZR_le; lia). pose proof (pos_INR n) as Hp0.
    assert (M : exists z v, year_loop (S n) part (ys + 1) g = Ret z /\ fin24 z v /\ near v (x0 + INR (S n))).
    { cbn [year_loop]. rewrite Pm by lia. cbn [obind].
      assert (Fa : fin24 (gadd g (gof_Z 1)) (r24 (v0 + 1))).
      { apply fin_add; [exact G0|exact one_fin|]. small. rewrite Rabs_pos_eq by lra. apply Rle_trans with 4; [lra|apply IZR_le; lia]. }
      assert (N1 : near (r24 (v0 + 1)) (x0 + 1)).
      { apply near_first; [|exact V0|apply Rabs_le; lra]. destruct F0 as [_ <-]. apply fmt_B2R. }
      destruct (ones_loop n part (ys + 1 + 1) _ _ _ Fa N1 ltac:(lra)) as (z & v & A & B & C).
      { intros i Hi. apply Pm. lia. }
      exists z, v. split; [exact A|]. split; [exact B|]. rewrite S_INR. replace (x0 + (INR n + 1)) with (x0 + 1 + INR n) by lra. exact C. }
    destruct M as (z & v & A & B & C). destruct (near_bounds _ _ C) as [C0 C1]. rewrite S_INR in *.
    destruct (Last z v A B ltac:(lra)) as (z' & A' & B'). exists z', (r24 (v + v1)). split; [exact A'|]. split; [exact B'|].
    destruct C as (_ & k & Hk & Hv & He). apply Rabs_le_inv in He.
    pose proof (rnd_err 24 128 (k + 3) (v + v1)) as Q. change (SpecFloat.emin 24 128) with (-149)%Z in Q. specialize (Q ltac:(lia)).
    assert (B1 : bpow radix2 (k + 1) = 2 * bpow radix2 k) by (rewrite bpow_plus; change (bpow radix2 1) with 2; lra).
    assert (B3 : bpow radix2 (k + 3) = 8 * bpow radix2 k) by (rewrite bpow_plus; change (bpow radix2 3) with 8; lra).
    assert (K0 : / 2 <= bpow radix2 k) by (change (/ 2) with (bpow radix2 (-1)); apply bpow_le; lia).
    specialize (Q ltac:(apply Rabs_le; lra)).
    replace (k + 3 - 24 - 1)%Z with (k + -22)%Z in Q by lia. rewrite bpow_plus in Q. change (bpow radix2 (-22)) with (/ 4194304) in Q.
    replace (k - 21)%Z with (k + -21)%Z in He by lia. rewrite bpow_plus in He. change (bpow radix2 (-21)) with (/ 2097152) in He.
    apply Rabs_le_inv in Q. apply Rabs_le. lra.
Qed.

Lemma over_years_one : forall part y p v, part y = Ret p -> fin24 p v -> Rabs v <= 100 ->
  exists z, over_years part y y = Ret z /\ fin24 z v.
Proof.
  intros part y p v P F B. unfold over_years. replace (y - y + 1)%Z with 1%Z by lia. change (Z.to_nat 1) with 1%nat.
  cbn [year_loop]. rewrite P. cbn [obind]. eexists. split; [reflexivity|]. exact (add_zero p v F B).
Qed.

(** ** one part *)
Lemma days_in_year_fin : forall y, fin24 (days_in_year y) (IZR (if is_leap_year y then 366 else 365)).
Proof.
  intro y. unfold days_in_year. set (n := if is_leap_year y then 366%Z else 365%Z).
  assert (N : (365 <= n <= 366)%Z) by (subst n; destruct (is_leap_year y); lia).
  pose proof (fin_of_Z 24 128 n) as H. rewrite rnd_int in H by (try typeclasses eauto; lia). apply H.
  small. rewrite <- abs_IZR. apply IZR_le. lia.
Qed.
Lemma of_Z_fin : forall n, (Z.abs n <= 2 ^ 24)%Z -> fin24 (gof_Z n) (IZR n).
Proof.
  intros n N. pose proof (fin_of_Z 24 128 n) as H. rewrite rnd_int in H by (try typeclasses eauto; lia). apply H.
  small. rewrite <- abs_IZR. apply IZR_le. lia.
Qed.

(** a number of days over the length of the year *)
Lemma day_part : forall n y, (-366 <= n <= 366)%Z ->
  let l := IZR (if is_leap_year y then 366 else 365) in
  exists v, fin24 (gdiv (gof_Z n) (days_in_year y)) v /\ Rabs (v - IZR n / l) <= / 16777216 /\
    (IZR n / l - / 16777216 <= v <= IZR n / l + / 16777216) /\ (-1003/1000 <= IZR n / l <= 1003/1000).
Proof.
  intros n y Hn l. assert (L : 365 <= l <= 366) by (unfold l; destruct (is_leap_year y); lra).
  assert (Nb : -366 <= IZR n <= 366) by (split; apply IZR_le; lia).
  assert (B : -1003/1000 <= IZR n / l <= 1003/1000).
  { split; apply Rmult_le_reg_r with l; try lra; unfold Rdiv; rewrite (Rmult_assoc (IZR n)), Rinv_l; lra. }
  exists (r24 (IZR n / l)). split.
  - apply fin_div; [apply of_Z_fin; lia|apply days_in_year_fin|lra|]. small. apply Rle_trans with 2; [apply Rabs_le; lra|apply IZR_le; lia].
  - pose proof (rnd_err 24 128 1 (IZR n / l)) as Q. change (SpecFloat.emin 24 128) with (-149)%Z in Q. specialize (Q ltac:(lia)).
    change (bpow radix2 1) with 2 in Q. specialize (Q ltac:(apply Rabs_le; lra)). change (bpow radix2 (1 - 24 - 1)) with (/ 16777216) in Q.
    split; [exact Q|]. apply Rabs_le_inv in Q. split; [lra|exact B].
Qed.

(** a number of nanoseconds turned into days *)
Definition days_of (ns : Z) : R := IZR ns / IZR day_ns.

Lemma seconds_close : forall ns, (Z.abs ns <= 33000000 * 1000000000)%Z ->
  exists v, fin53 (as_seconds_f64 ns) v /\ Rabs (v - IZR ns / 1000000000) <= / 1048576.
Proof.
  intros ns Hn. set (q := Z.quot ns 1000000000). set (m := Z.rem ns 1000000000).
  assert (E : ns = (1000000000 * q + m)%Z) by apply Z.quot_rem'.
  assert (M : (Z.abs m < 1000000000)%Z) by (subst m; Z.to_euclidean_division_equations; lia).
  assert (Q : (Z.abs q <= 33000000)%Z) by (subst q; Z.to_euclidean_division_equations; lia).
  assert (H53 : forall n, (Z.abs n <= 2 ^ 40)%Z -> fin53 (gof_Z n) (IZR n)).
  { intros n N. pose proof (fin_of_Z 53 1024 n) as H. rewrite rnd_int in H by (try typeclasses eauto; lia). apply H.
    unfold huge. apply Rle_trans with (bpow radix2 100); [rewrite <- abs_IZR; rewrite b_pos; apply IZR_le; lia|apply bpow_le; lia]. }
  assert (Hh : forall x, Rabs x <= IZR (2 ^ 40) -> Rabs x <= huge 1024).
  { intros x Hx. unfold huge. apply Rle_trans with (bpow radix2 100); [apply Rle_trans with (1 := Hx); rewrite b_pos; apply IZR_le; lia|apply bpow_le; lia]. }
  assert (Mb : -1000000000 <= IZR m <= 1000000000) by (split; apply IZR_le; lia).
  assert (Qb : -33000000 <= IZR q <= 33000000) by (split; apply IZR_le; lia).
  assert (Fd : fin53 (gdiv (gof_Z m) (gof_Z 1000000000)) (r53 (IZR m / 1000000000))).
  { apply fin_div; [apply H53; lia|apply H53; lia|lra|]. apply Hh. apply Rabs_le. split; [|apply Rle_trans with 2; [lra|apply IZR_le; lia]].
    apply Rle_trans with (-2); [|lra]. change (-2) with (- (2)). apply Ropp_le_contravar. apply IZR_le. lia. }
  pose proof (rnd_err 53 1024 0 (IZR m / 1000000000)) as R1. change (SpecFloat.emin 53 1024) with (-1074)%Z in R1. specialize (R1 ltac:(lia)).
  change (bpow radix2 0) with 1 in R1. specialize (R1 ltac:(apply Rabs_le; lra)).
  apply Rabs_le_inv in R1. assert (Bs : bpow radix2 (0 - 53 - 1) <= / 4194304) by (change (/ 4194304) with (bpow radix2 (-22)); apply bpow_le; lia).
  set (w := r53 (IZR m / 1000000000)) in *.
  exists (r53 (IZR q + w)). split.
  - unfold as_seconds_f64. fold q m. apply fin_add; [apply H53; lia|exact Fd|]. apply Hh. apply Rle_trans with 34000000; [apply Rabs_le; lra|apply IZR_le; lia].
  - pose proof (rnd_err 53 1024 26 (IZR q + w)) as R2. change (SpecFloat.emin 53 1024) with (-1074)%Z in R2. specialize (R2 ltac:(lia)).
    change (bpow radix2 26) with 67108864 in R2. specialize (R2 ltac:(apply Rabs_le; lra)). apply Rabs_le_inv in R2.
    assert (Bt : bpow radix2 (26 - 53 - 1) <= / 4194304) by (change (/ 4194304) with (bpow radix2 (-22)); apply bpow_le; lia).
    rewrite E, plus_IZR, mult_IZR. apply Rabs_le. lra.
Qed.

Lemma seconds_per_day : fin24 (gmul (gmul (gof_Z 24) (gof_Z 60)) (gof_Z 60)) 86400.
Proof.
  assert (A : fin24 (gmul (gof_Z 24) (gof_Z 60)) 1440).
  { pose proof (fin_mul 24 128 _ _ _ _ (of_Z_fin 24 ltac:(lia)) (of_Z_fin 60 ltac:(lia))) as H.
    rewrite <- mult_IZR in H. rewrite rnd_int in H by (try typeclasses eauto; lia). apply H. small. rewrite <- abs_IZR. apply IZR_le. lia. }
  pose proof (fin_mul 24 128 _ _ _ _ A (of_Z_fin 60 ltac:(lia))) as H.
  rewrite <- mult_IZR in H. rewrite rnd_int in H by (try typeclasses eauto; lia). apply H. small. rewrite <- abs_IZR. apply IZR_le. lia.
Qed.

Lemma days_close : forall ns, (Z.abs ns <= 33000000 * 1000000000)%Z ->
  exists v, fin24 (days_f32 ns) v /\ Rabs (v - days_of ns) <= / 32768.
Proof.
  intros ns Hn. destruct (seconds_close ns Hn) as (v & F & E).
  assert (Nb : -33000000 <= IZR ns / 1000000000 <= 33000000).
  { assert (-33000000 * 1000000000 <= IZR ns <= 33000000 * 1000000000) by (rewrite <- !mult_IZR; split; apply IZR_le; lia). lra. }
  apply Rabs_le_inv in E.
  assert (Fc : fin24 (f32_of_f64 (as_seconds_f64 ns)) (r24 v)).
  { apply conv_fin; [exact F|]. small. apply Rle_trans with 34000000; [apply Rabs_le; lra|apply IZR_le; lia]. }
  pose proof (rnd_err 24 128 25 v) as R1. change (SpecFloat.emin 24 128) with (-149)%Z in R1. specialize (R1 ltac:(lia)).
  change (bpow radix2 25) with 33554432 in R1. specialize (R1 ltac:(apply Rabs_le; lra)). change (bpow radix2 (25 - 24 - 1)) with 1 in R1.
  apply Rabs_le_inv in R1. set (w := r24 v) in *.
  exists (r24 (w / 86400)). split.
  - unfold days_f32. apply fin_div; [exact Fc|exact seconds_per_day|lra|]. small. apply Rle_trans with 500; [apply Rabs_le; lra|apply IZR_le; lia].
  - pose proof (rnd_err 24 128 9 (w / 86400)) as R2. change (SpecFloat.emin 24 128) with (-149)%Z in R2. specialize (R2 ltac:(lia)).
    change (bpow radix2 9) with 512 in R2. specialize (R2 ltac:(apply Rabs_le; lra)). change (bpow radix2 (9 - 24 - 1)) with (/ 65536) in R2.
    apply Rabs_le_inv in R2. unfold days_of. change (IZR day_ns) with 86400000000000.
    replace (IZR ns / 86400000000000) with (IZR ns / 1000000000 / 86400) by lra. apply Rabs_le. lra.
Qed.

Lemma ns_part : forall ns y, (Z.abs ns <= 31990000 * 1000000000)%Z ->
  let l := IZR (if is_leap_year y then 366 else 365) in
  exists v, fin24 (gdiv (days_f32 ns) (days_in_year y)) v /\ Rabs (v - days_of ns / l) <= 6 / 33554432 /\
    (days_of ns / l - 6 / 33554432 <= v <= days_of ns / l + 6 / 33554432).
Proof.
  intros ns y Hn l. destruct (days_close ns ltac:(lia)) as (d & F & E). apply Rabs_le_inv in E.
  assert (L : 365 <= l <= 366) by (unfold l; destruct (is_leap_year y); lra).
  assert (Nb : -3702546297/10000000 <= days_of ns <= 3702546297/10000000).
  { assert (-31990000 * 1000000000 <= IZR ns <= 31990000 * 1000000000) by (rewrite <- !mult_IZR; split; apply IZR_le; lia).
    unfold days_of. change (IZR day_ns) with 86400000000000. lra. }
  assert (Li : / 366 <= / l <= / 365) by (split; apply Rinv_le; lra).
  assert (B : -2 <= d / l <= 2).
  { split; apply Rmult_le_reg_r with l; try lra; unfold Rdiv; rewrite (Rmult_assoc d), Rinv_l; lra. }
  assert (D : - (/ 32768 / 365) <= d / l - days_of ns / l <= / 32768 / 365).
  { replace (d / l - days_of ns / l) with ((d - days_of ns) * / l) by (unfold Rdiv; ring). split.
    - apply Rle_trans with (- (/ 32768) * / l); [lra|]. apply Rmult_le_compat_r; lra.
    - apply Rle_trans with (/ 32768 * / l); [|lra]. apply Rmult_le_compat_r; lra. }
  exists (r24 (d / l)). split.
  - apply fin_div; [exact F|apply days_in_year_fin|lra|]. small. apply Rle_trans with 2; [apply Rabs_le; lra|apply IZR_le; lia].
  - pose proof (rnd_err 24 128 1 (d / l)) as Q. change (SpecFloat.emin 24 128) with (-149)%Z in Q. specialize (Q ltac:(lia)).
    change (bpow radix2 1) with 2 in Q. specialize (Q ltac:(apply Rabs_le; lra)). change (bpow radix2 (1 - 24 - 1)) with (/ 16777216) in Q.
    apply Rabs_le_inv in Q. split; [apply Rabs_le|]; lra.
Qed.
