(** EwmaProps.v -- property theorems about the moving averages (C75, C76). *)
From Coq Require Import ZArith Reals List Bool Lia Lra Psatz.
From Flocq Require Import Core Relative.
From Flocq Require Import IEEE754.BinarySingleNaN.
From Verif Require Import Base ClockModel FloatModel FloatFacts TickProofs EwmaModel TickSpec.
Import ListNotations.
Open Scope R_scope.

(** One rounding: relative error 2^-53, absolute error 2^-1075. *)
Notation u53 := (bpow radix2 (-53)).
Notation eta := (bpow radix2 (-1075)).
Lemma rd_any : forall x, Rabs (rd x - x) <= u53 * Rabs x + eta.
Proof.
  intros x. destruct (Rle_or_lt (bpow radix2 (-1000)) (Rabs x)) as [H|H].
  - pose proof (rd_rel x (or_intror H)). pose proof (bpow_gt_0 radix2 (-1075)). lra.
  - destruct (error_N_FLT radix2 (SpecFloat.emin 53 1024) 53 p53 (fun z => negb (Z.even z)) x) as (eps & et & He & Ht & _ & E).
    change (round radix2 (FLT_exp (SpecFloat.emin 53 1024) 53) (Znearest (fun z => negb (Z.even z))) x) with (rd x) in E.
    rewrite E. replace (x * (1 + eps) + et - x) with (x * eps + et) by ring.
    eapply Rle_trans; [apply Rabs_triang|]. rewrite Rabs_mult, (Rmult_comm _ (Rabs eps)).
    apply Rplus_le_compat.
    + apply Rmult_le_compat_r; [apply Rabs_pos|]. eapply Rle_trans; [exact He|]. right.
      change (/2) with (bpow radix2 (-1)). rewrite <- bpow_plus. reflexivity.
    + eapply Rle_trans; [exact Ht|]. right. change (/2) with (bpow radix2 (-1)). rewrite <- bpow_plus. reflexivity.
Qed.

(** The growth allowed per update. *)
Definition e50 : R := / IZR (2 ^ 50).

Lemma rd_up : forall x, 0 <= x -> rd x <= x * (1 + u53) + eta.
Proof. intros x H. pose proof (rd_any x) as E. rewrite (Rabs_pos_eq x H) in E. apply Rabs_le_inv in E. lra. Qed.
Lemma rd_down : forall x, 0 <= x -> x * (1 - u53) - eta <= rd x.
Proof. intros x H. pose proof (rd_any x) as E. rewrite (Rabs_pos_eq x H) in E. apply Rabs_le_inv in E. lra. Qed.

Lemma mix_bounds : forall w v x lo hi, 0 <= w <= 1 -> bpow radix2 (-900) <= lo -> lo <= v <= hi -> lo <= x <= hi ->
  lo * (1 - e50) <= rd (rd (w * v) + rd (rd (1 - w) * x)) <= hi * (1 + e50).
Proof.
  intros w v x lo hi Hw Hlo Hv Hx.
  assert (L0 : 0 < lo) by (pose proof (bpow_gt_0 radix2 (-900)); lra).
  assert (Hd : eta <= lo * bpow radix2 (-175)).
  { apply Rle_trans with (bpow radix2 (-900) * bpow radix2 (-175)); [rewrite <- bpow_plus; apply bpow_le; lia|].
    apply Rmult_le_compat_r; [apply bpow_ge_0|exact Hlo]. }
  assert (Hd2 : bpow radix2 (-175) <= u53 * u53) by (rewrite <- bpow_plus; apply bpow_le; lia).
  assert (Hu : 0 < u53) by apply bpow_gt_0. assert (He : 0 < eta) by apply bpow_gt_0.
  assert (E1 : eta <= u53 * u53 * lo) by (apply Rle_trans with (1 := Hd); nra).
  assert (E2 : eta <= u53 * u53).
  { apply Rle_trans with (bpow radix2 (-175)); [apply bpow_le; lia|exact Hd2]. }
  assert (U : u53 <= / 1000) by (rewrite <- (Rinv_inv u53); apply Rinv_le; [lra|];
    rewrite <- bpow_opp; change (- (-53))%Z with 53%Z; apply (IZR_le 1000 (2 ^ 53)); lia).
  assert (Ee : e50 = 8 * u53).
  { unfold e50. change (2 ^ 50)%Z with (radix2 ^ 50)%Z. rewrite IZR_Zpower by lia. rewrite <- bpow_opp.
    change 8 with (bpow radix2 3). rewrite <- bpow_plus. reflexivity. }
  rewrite Ee. set (u := u53) in *. set (n := eta) in *.
  set (c := rd (1 - w)). set (a := rd (w * v)). set (b := rd (c * x)).
  assert (c0 : 0 <= c) by (apply rnd_nonneg; [typeclasses eauto..|lra]).
  assert (cu : c <= (1 - w) * (1 + u) + n) by (apply rd_up; lra).
  assert (cd : (1 - w) * (1 - u) - n <= c) by (apply rd_down; lra).
  assert (a0 : 0 <= a) by (apply rnd_nonneg; [typeclasses eauto..|nra]).
  assert (au : a <= w * v * (1 + u) + n) by (apply rd_up; nra).
  assert (ad : w * v * (1 - u) - n <= a) by (apply rd_down; nra).
  assert (b0 : 0 <= b) by (apply rnd_nonneg; [typeclasses eauto..|nra]).
  assert (bu : b <= c * x * (1 + u) + n) by (apply rd_up; nra).
  assert (bd : c * x * (1 - u) - n <= b) by (apply rd_down; nra).
  assert (su : rd (a + b) <= (a + b) * (1 + u) + n) by (apply rd_up; lra).
  assert (sd : (a + b) * (1 - u) - n <= rd (a + b)) by (apply rd_down; lra).
  assert (h0 : lo <= hi) by lra.
  assert (n_hi : n <= u * u * hi) by nra.
  assert (mono : forall p q k, 0 <= k -> p <= q -> p * k <= q * k) by (intros; apply Rmult_le_compat_r; assumption).
  assert (P : 0 < u * lo) by (apply Rmult_lt_0_compat; lra).
  assert (Ph : u * lo <= u * hi) by (apply Rmult_le_compat_l; lra).
  assert (U2 : u * u <= u * / 1000) by (apply Rmult_le_compat_l; lra).
  assert (Q : u * u * lo <= / 1000 * (u * lo)) by (replace (u * u * lo) with (u * (u * lo)) by ring; apply mono; lra).
  assert (Qh : u * u * hi <= / 1000 * (u * hi)) by (replace (u * u * hi) with (u * (u * hi)) by ring; apply mono; lra).
  split.
  - apply Rle_trans with (2 := sd).
    assert (C1 : (1 - w) * (1 - u) * lo - n * lo <= c * x).
    { destruct (Rle_or_lt 0 ((1 - w) * (1 - u) - n)) as [G|G].
      - apply Rle_trans with (((1 - w) * (1 - u) - n) * x); [|apply mono; lra].
        replace ((1 - w) * (1 - u) * lo - n * lo) with (((1 - w) * (1 - u) - n) * lo) by ring. apply Rmult_le_compat_l; lra.
      - apply Rle_trans with 0; [|apply Rmult_le_pos; lra].
        replace ((1 - w) * (1 - u) * lo - n * lo) with (- ((- ((1 - w) * (1 - u) - n)) * lo)) by ring.
        assert (0 <= (- ((1 - w) * (1 - u) - n)) * lo) by (apply Rmult_le_pos; lra). lra. }
    assert (A1 : w * lo <= w * v) by (apply Rmult_le_compat_l; lra).
    assert (A2 : w * lo * (1 - u) <= w * v * (1 - u)) by (apply mono; lra).
    assert (C2 : ((1 - w) * (1 - u) * lo - n * lo) * (1 - u) <= c * x * (1 - u)) by (apply mono; lra).
    assert (N1 : n * lo <= / 1000 * (u * lo)).
    { apply Rle_trans with (u * u * lo); [apply mono; lra|exact Q]. }
    assert (N2 : 0 <= n * lo) by (apply Rmult_le_pos; lra).
    assert (N3 : n * lo * (1 - u) <= n * lo) by (rewrite <- (Rmult_1_r (n * lo)) at 2; apply Rmult_le_compat_l; lra).
    assert (W1 : 0 <= (1 - w) * (u * lo)) by (apply Rmult_le_pos; lra).
    assert (W2 : 0 <= w * (u * lo)) by (apply Rmult_le_pos; lra).
    assert (W3 : 0 <= (1 - w) * (u * (u * lo))) by (apply Rmult_le_pos; [lra|apply Rmult_le_pos; lra]).
    assert (S2 : lo * (1 - 3 * u) <= a + b).
    { apply Rle_trans with (w * lo * (1 - u) - n + (((1 - w) * (1 - u) * lo - n * lo) * (1 - u) - n)); [|lra].
      replace (w * lo * (1 - u) - n + (((1 - w) * (1 - u) * lo - n * lo) * (1 - u) - n))
        with (lo - 2 * (u * lo) + w * (u * lo) + (1 - w) * (u * (u * lo)) - 2 * n - n * lo * (1 - u)) by ring.
      replace (lo * (1 - 3 * u)) with (lo - 3 * (u * lo)) by ring. lra. }
    assert (S3 : lo * (1 - 3 * u) * (1 - u) <= (a + b) * (1 - u)) by (apply mono; lra).
    replace (lo * (1 - 3 * u) * (1 - u)) with (lo - 4 * (u * lo) + 3 * (u * u * lo)) in S3 by ring.
    assert (0 <= u * u * lo) by (apply Rmult_le_pos; [apply Rmult_le_pos|]; lra).
    replace (lo * (1 - 8 * u)) with (lo - 8 * (u * lo)) by ring. lra.
  - apply Rle_trans with (1 := su).
    assert (C1 : c * x <= (1 - w) * (1 + u) * hi + n * hi).
    { apply Rle_trans with (((1 - w) * (1 + u) + n) * x); [apply mono; lra|].
      replace ((1 - w) * (1 + u) * hi + n * hi) with (((1 - w) * (1 + u) + n) * hi) by ring. apply Rmult_le_compat_l; lra. }
    assert (A1 : w * v <= w * hi) by (apply Rmult_le_compat_l; lra).
    assert (A2 : w * v * (1 + u) <= w * hi * (1 + u)) by (apply mono; lra).
    assert (C2 : c * x * (1 + u) <= ((1 - w) * (1 + u) * hi + n * hi) * (1 + u)) by (apply mono; lra).
    assert (N1 : n * hi <= / 1000 * (u * hi)).
    { apply Rle_trans with (u * u * hi); [apply mono; lra|exact Qh]. }
    assert (N2 : 0 <= n * hi) by (apply Rmult_le_pos; lra).
    assert (N3 : n * hi * (1 + u) <= n * hi * 2) by (apply Rmult_le_compat_l; lra).
    assert (W2 : 0 <= w * (u * hi)) by (apply Rmult_le_pos; lra).
    assert (W3 : (1 - w) * (u * (u * hi)) <= u * (u * hi)).
    { rewrite <- (Rmult_1_l (u * (u * hi))) at 2. apply mono; [apply Rmult_le_pos; [|]; lra|lra]. }
    assert (S2 : a + b <= hi * (1 + 3 * u)).
    { apply Rle_trans with (w * hi * (1 + u) + n + (((1 - w) * (1 + u) * hi + n * hi) * (1 + u) + n)); [lra|].
      replace (w * hi * (1 + u) + n + (((1 - w) * (1 + u) * hi + n * hi) * (1 + u) + n))
        with (hi + 2 * (u * hi) - w * (u * hi) + (1 - w) * (u * (u * hi)) + 2 * n + n * hi * (1 + u)) by ring.
      replace (u * u * hi) with (u * (u * hi)) in * by ring.
      replace (hi * (1 + 3 * u)) with (hi + 3 * (u * hi)) by ring. lra. }
    assert (S3 : (a + b) * (1 + u) <= hi * (1 + 3 * u) * (1 + u)) by (apply mono; lra).
    replace (hi * (1 + 3 * u) * (1 + u)) with (hi + 4 * (u * hi) + 3 * (u * u * hi)) in S3 by ring.
    replace (hi * (1 + 8 * u)) with (hi + 8 * (u * hi)) by ring. lra.
Qed.

Lemma scale_pos : forall s, (1 <= scale_nanos s <= 2 ^ 50)%Z.
Proof. intros []; unfold scale_nanos; unfold day_scale; unfold hour_scale; unfold minute_scale; unfold second_scale, milli_scale, micro_scale; lia. Qed.

(** Elapsed time is a finite nonnegative number. *)
Lemma diff_real_ok : forall m s a b, (0 <= b <= a)%Z -> is_u64 a ->
  exists d r, diff_real m (scale_nanos s) a b = Ret d /\ fin64 d r /\ 0 <= r.
Proof.
  intros m s a b Hab Ha. pose proof (scale_pos s) as Hs. unfold is_u64, two64 in Ha.
  unfold diff_real, diff_in. rewrite usub_ok by lia. cbn [obind]. unfold div_rem. cbn [obind].
  set (q := ((a - b) / scale_nanos s)%Z). set (r := (a - b - q * scale_nanos s)%Z).
  assert (Hq : (0 <= q < 2 ^ 64)%Z).
  { unfold q. split; [apply Z.div_pos; lia|]. apply Z.le_lt_trans with (a - b)%Z; [|lia].
    apply Z.div_le_upper_bound; [lia|]. nia. }
  assert (Hr : (0 <= r < scale_nanos s)%Z).
  { unfold r, q. pose proof (Z.mod_pos_bound (a - b) (scale_nanos s) ltac:(lia)) as M. rewrite Z.mod_eq in M by lia. rewrite (Z.mul_comm (_ / _)). exact M. }
  pose proof (fin_Z q ltac:(lia)) as Fq. pose proof (fin_Z r ltac:(lia)) as Fr.
  pose proof (fin_Z (scale_nanos s) ltac:(lia)) as Fs.
  rewrite (rnd_int 53 1024 (scale_nanos s)) in Fs by lia. rewrite (rnd_int 53 1024 r) in Fr by lia.
  assert (S1 : 1 <= IZR (scale_nanos s)) by (apply (IZR_le 1); lia).
  assert (R0 : 0 <= IZR r) by (apply (IZR_le 0); lia).
  assert (R1 : 0 <= IZR r / IZR (scale_nanos s) <= 1).
  { split; [apply Rmult_le_pos; [lra|left; apply Rinv_0_lt_compat; lra]|].
    apply Rmult_le_reg_r with (IZR (scale_nanos s)); [lra|]. unfold Rdiv. rewrite Rmult_assoc, Rinv_l, Rmult_1_r, Rmult_1_l by lra.
    apply IZR_le. lia. }
  assert (H200 : 1 <= IZR (2 ^ 200)) by (apply (IZR_le 1); lia).
  pose proof (fin_div 53 1024 _ _ _ _ Fr Fs ltac:(lra) ltac:(apply huge64; rewrite Rabs_pos_eq; lra)) as Fd.
  pose proof (rnd_nonneg 53 1024 _ (proj1 R1)) as D0.
  assert (D1 : rd (IZR r / IZR (scale_nanos s)) <= 1).
  { rewrite <- (rnd_int 53 1024 1) by lia. apply rnd_le; try typeclasses eauto. lra. }
  assert (Q0 : 0 <= rd (IZR q)) by (apply rnd_nonneg; try typeclasses eauto; apply (IZR_le 0); lia).
  pose proof (rd_2_64 q ltac:(lia)) as Q1. rewrite Rabs_pos_eq in Q1 by exact Q0.
  eexists. eexists. split; [reflexivity|]. split.
  - apply fin_add; [exact Fq|exact Fd|]. apply huge64. rewrite Rabs_pos_eq by lra.
    apply Rle_trans with (IZR (2 ^ 64) + 1); [lra|]. rewrite <- plus_IZR. apply IZR_le. lia.
  - apply rnd_nonneg; try typeclasses eauto. lra.
Qed.

(** The decay per unit of time is a finite number in [0, 1] (any weight in
    [0, 1], any correct [powf]). *)
Definition decays (powf : f64 -> f64 -> f64) (w : f64) : Prop :=
  forall d r, fin64 d r -> 0 <= r -> exists p, fin64 (powf w d) p /\ 0 <= p <= 1.

(** ** C75: the moving average stays within the range of the observations. *)
Theorem C75_average_stays_in_range : forall powf m w v0 t0 l lo hi r0,
  decays powf (tw_weight w) -> is_u64 t0 ->
  fin64 v0 r0 -> lo <= r0 <= hi ->
  (forall t x, In (t, x) l -> is_u64 t /\ (t0 <= t)%Z /\ exists r, fin64 x r /\ lo <= r <= hi) ->
  bpow radix2 (-900) <= lo * (1 - e50) ^ length l -> hi * (1 + e50) ^ length l <= bpow radix2 1000 ->
  exists s r, ewma_run powf m (ewma_new w v0 t0) l = Ret s /\ fin64 (ewma_get s) r /\
    lo * (1 - e50) ^ length l <= r <= hi * (1 + e50) ^ length l.
Proof.
  intros powf m w v0 t0 l lo hi r0 Hp Ht0 Fv Hv Hl HL HU.
  assert (e0 : 0 < e50 < 1).
  { unfold e50. split; [apply Rinv_0_lt_compat; apply IZR_lt; reflexivity|].
    rewrite <- Rinv_1. apply Rinv_lt_contravar; [rewrite Rmult_1_l; apply IZR_lt; reflexivity|apply IZR_lt; reflexivity]. }
  unfold ewma_new.
  assert (G : forall l v L H r0, fin64 v r0 -> L <= r0 <= H -> L <= lo -> hi <= H ->
    (forall t x, In (t, x) l -> is_u64 t /\ (t0 <= t)%Z /\ exists r, fin64 x r /\ lo <= r <= hi) ->
    bpow radix2 (-900) <= L * (1 - e50) ^ length l -> H * (1 + e50) ^ length l <= bpow radix2 1000 ->
    exists s r, ewma_run powf m (EwmaState w t0 v) l = Ret s /\ fin64 (ewma_get s) r /\
      L * (1 - e50) ^ length l <= r <= H * (1 + e50) ^ length l).
  { clear l Hl HL HU v0 r0 Fv Hv.
    induction l as [|[t x] l IH]; intros v L H r0 F0 B0 HL HH Hl A1 A2.
    - exists (EwmaState w t0 v), r0. split; [reflexivity|]. split; [exact F0|]. cbn [length pow]. lra.
    - destruct (Hl t x (or_introl eq_refl)) as (Ut & Lt & r & Fx & Bx).
      destruct (diff_real_ok m (tw_scale w) t t0) as (d & dr & Ed & Fd & D0); [unfold is_u64 in *; lia|exact Ut|].
      destruct (Hp d dr Fd D0) as (p & Fp & Bp).
      cbn [length pow] in A1, A2.
      assert (Pn : 0 < (1 - e50) ^ length l <= 1).
      { split; [apply pow_lt; lra|]. apply Rle_trans with (1 ^ length l); [apply pow_incr; lra|rewrite pow1; lra]. }
      assert (Pu : 1 <= (1 + e50) ^ length l) by (apply pow_R1_Rle; lra).
      assert (Lpos : 0 < L).
      { pose proof (bpow_gt_0 radix2 (-900)). assert (0 < L * ((1 - e50) * (1 - e50) ^ length l)) by lra.
        assert (0 < (1 - e50) * (1 - e50) ^ length l) by nra. nra. }
      assert (L900 : bpow radix2 (-900) <= L).
      { apply Rle_trans with (1 := A1). assert ((1 - e50) * (1 - e50) ^ length l <= 1) by nra. nra. }
      assert (H1000 : H <= bpow radix2 1000).
      { apply Rle_trans with (2 := A2). assert (1 <= (1 + e50) * (1 + e50) ^ length l) by nra. assert (0 < H) by lra. nra. }
      pose proof (mix_bounds p r0 r L H Bp L900 B0 ltac:(lra)) as MB.
      assert (F1 : fin64 (current_weight (powf (tw_weight w) d)) (rd (1 - p))).
      { unfold current_weight. pose proof (fin_Z 1 ltac:(lia)) as F1. rewrite (rnd_int 53 1024 1) in F1 by lia.
        apply fin_sub; [exact F1|exact Fp|]. apply huge64. rewrite Rabs_pos_eq by lra.
        apply Rle_trans with 1; [lra|]. apply (IZR_le 1). lia. }
      assert (huge_1000 : forall z, Rabs z <= 4 * bpow radix2 1000 -> Rabs z <= huge 1024).
      { intros z Hz. apply Rle_trans with (1 := Hz). unfold huge. change 4 with (bpow radix2 2). rewrite <- bpow_plus. apply bpow_le. lia. }
      pose proof (bpow_gt_0 radix2 1000).
      assert (R0 : 0 < r0) by lra. assert (Rr : 0 < r) by lra.
      assert (c01 : 0 <= rd (1 - p) <= 1).
      { split; [apply rnd_nonneg; try typeclasses eauto; lra|]. rewrite <- (rnd_int 53 1024 1) at 2 by lia. apply rnd_le; try typeclasses eauto. lra. }
      assert (Fa : fin64 (gmul (powf (tw_weight w) d) v) (rd (p * r0))).
      { apply fin_mul; [exact Fp|exact F0|]. apply huge_1000. rewrite Rabs_pos_eq by nra. nra. }
      assert (Fb : fin64 (gmul (current_weight (powf (tw_weight w) d)) x) (rd (rd (1 - p) * r))).
      { apply fin_mul; [exact F1|exact Fx|]. apply huge_1000. rewrite Rabs_pos_eq by nra. nra. }
      assert (a1 : 0 <= rd (p * r0) <= bpow radix2 1000).
      { split; [apply rnd_nonneg; try typeclasses eauto; nra|].
        rewrite <- (rnd_fix 53 1024 (bpow radix2 1000)) by (apply fmt_bpow; [typeclasses eauto|unfold SpecFloat.emin; lia]).
        apply rnd_le; try typeclasses eauto. nra. }
      assert (b1 : 0 <= rd (rd (1 - p) * r) <= bpow radix2 1000).
      { split; [apply rnd_nonneg; try typeclasses eauto; nra|].
        rewrite <- (rnd_fix 53 1024 (bpow radix2 1000)) by (apply fmt_bpow; [typeclasses eauto|unfold SpecFloat.emin; lia]).
        apply rnd_le; try typeclasses eauto. nra. }
      assert (Fs : fin64 (gadd (gmul (previous_weight (powf (tw_weight w) d)) v) (gmul (current_weight (powf (tw_weight w) d)) x))
                     (rd (rd (p * r0) + rd (rd (1 - p) * r)))).
      { unfold previous_weight. apply fin_add; [exact Fa|exact Fb|]. apply huge_1000. rewrite Rabs_pos_eq by lra. lra. }
      destruct (IH _ (L * (1 - e50)) (H * (1 + e50)) _ Fs MB) as (s & r' & E & F & B).
      + nra.
      + nra.
      + intros t' x' I. apply Hl. now right.
      + rewrite Rmult_assoc. exact A1.
      + rewrite Rmult_assoc. exact A2.
      + exists s, r'. cbn [ewma_run]. unfold ewma_update, weight_apply. cbn [ew_weight ew_time ew_value].
        rewrite Ed. cbn [obind]. split; [exact E|]. split; [exact F|]. cbn [length pow]. rewrite <- !Rmult_assoc. exact B. }
  apply (G l v0 lo hi r0); auto; lra.
Qed.

(** ** C76: every update decays by the time since the previous update. *)

(** Half-life of one second. *)
Definition half : f64 := gdiv (gof_Z 1) (gof_Z 2).
Definition half_life (powf : f64 -> f64 -> f64) : Prop :=
  (forall d, geq d (gof_Z 1) = true -> geq (powf half d) half = true) /\
  (forall d, geq d (gof_Z 2) = true -> geq (powf half d) (gmul half half) = true).

Lemma fin_geq : forall x y b, fin64 y b -> geq x y = true -> fin64 x b.
Proof.
  intros x y b [Fy <-] E. unfold geq in E.
  destruct x as [sx|sx| |sx mx ex Hx]; destruct y as [sy|sy| |sy my ey Hy]; try discriminate; try (destruct sx; discriminate); try (destruct sy; discriminate).
  - split; reflexivity.
  - split; [reflexivity|]. assert (FX : is_finite (B754_finite sx mx ex Hx : f64) = true) by reflexivity.
    assert (FY : is_finite (B754_finite sy my ey Hy : f64) = true) by reflexivity.
    rewrite (Beqb_correct _ _ _ _ FX FY) in E. now destruct (Req_bool_spec (B2R (B754_finite sx mx ex Hx : f64)) (B2R (B754_finite sy my ey Hy : f64))).
Qed.

Lemma fin_int : forall n, (Z.abs n <= 2 ^ 53)%Z -> fin64 (gof_Z n) (IZR n).
Proof. intros n H. rewrite <- (rnd_int 53 1024 n) by exact H. apply fin_Z. lia. Qed.
Lemma rd_pow2 : forall e, (-1000 <= e)%Z -> rd (bpow radix2 e) = bpow radix2 e.
Proof. intros e H. apply rnd_fix, fmt_bpow; [typeclasses eauto|unfold SpecFloat.emin; lia]. Qed.
Lemma huge_one : forall x, Rabs x <= 1 -> Rabs x <= huge 1024.
Proof. intros x H. apply huge64. apply Rle_trans with (1 := H). apply (IZR_le 1). lia. Qed.
Lemma fin_half : fin64 half (/ 2).
Proof.
  unfold half. replace (/ 2) with (rd (1 / 2)).
  - apply fin_div; [apply (fin_int 1); lia|apply (fin_int 2); lia|lra|]. apply huge_one. rewrite Rabs_pos_eq; lra.
  - replace (1 / 2) with (bpow radix2 (-1)) by (change (bpow radix2 (-1)) with (/ 2); lra). rewrite rd_pow2 by lia. reflexivity.
Qed.
Lemma fin_quarter : fin64 (gmul half half) (/ 4).
Proof.
  replace (/ 4) with (rd (/ 2 * / 2)).
  - apply fin_mul; [apply fin_half|apply fin_half|]. apply huge_one. rewrite Rabs_pos_eq; lra.
  - replace (/ 2 * / 2) with (bpow radix2 (-2)) by (change (bpow radix2 (-2)) with (/ 4); lra). rewrite rd_pow2 by lia. reflexivity.
Qed.

Definition one_s : Z := 1000000000.
Definition two_s : Z := 2000000000.
(** The exact half-life decay over whole seconds. *)
Definition halving (nanos : Z) : R := (/ 2) ^ Z.to_nat (nanos / one_s).

Lemma ewma_step : forall (p v x : f64) P V X, fin64 p P -> fin64 v V -> fin64 x X ->
  P = / 2 \/ P = / 4 -> X = 0 -> 0 <= V <= 8 -> rd (P * V) = P * V ->
  fin64 (gadd (gmul (previous_weight p) v) (gmul (current_weight p) x)) (P * V).
Proof.
  intros p v x P V X Fp Fv Fx HP -> HV E. unfold previous_weight, current_weight.
  assert (B : 0 <= P <= / 2) by (destruct HP as [-> | ->]; lra).
  assert (H8 : 8 <= IZR (2 ^ 200)) by (apply (IZR_le 8); lia).
  pose proof (fin_mul 53 1024 _ _ _ _ Fp Fv ltac:(apply huge64; rewrite Rabs_pos_eq; nra)) as Fa. rewrite E in Fa.
  pose proof (fin_sub 53 1024 _ _ _ _ (fin_int 1 ltac:(lia)) Fp ltac:(apply huge64; rewrite Rabs_pos_eq; lra)) as Fc.
  pose proof (fin_mul 53 1024 _ _ _ _ Fc Fx) as Fb. rewrite Rmult_0_r in Fb.
  specialize (Fb ltac:(rewrite Rabs_R0; apply bpow_ge_0)). rewrite rnd_0 in Fb by typeclasses eauto.
  pose proof (fin_add 53 1024 _ _ _ _ Fa Fb) as Fs. rewrite Rplus_0_r, E in Fs. apply Fs.
  apply huge64. rewrite Rabs_pos_eq; nra.
Qed.

Theorem C76_stale_timestamp_refuted : forall powf, half_life powf ->
  exists s, ewma_run powf Checked (ewma_new (TsWeight half Second) (gof_Z 8) 0) [(one_s, gzero); (two_s, gzero)] = Ret s /\
    B2R (ewma_get s) = 1 /\ ewma halving 0 8 [(one_s, 0); (two_s, 0)] = 2.
Proof.
  intros powf [H1 H2].
  assert (E1 : exists d, diff_real Checked second_scale one_s 0 = Ret d /\ geq d (gof_Z 1) = true).
  { exists (gadd (gof_Z 1) (gdiv (gof_Z 0) (gof_Z second_scale))). split; [reflexivity|]. vm_compute. reflexivity. }
  assert (E2 : exists d, diff_real Checked second_scale two_s 0 = Ret d /\ geq d (gof_Z 2) = true).
  { exists (gadd (gof_Z 2) (gdiv (gof_Z 0) (gof_Z second_scale))). split; [reflexivity|]. vm_compute. reflexivity. }
  destruct E1 as (d1 & E1 & G1). destruct E2 as (d2 & E2 & G2).
  pose proof (fin_geq _ _ _ fin_half (H1 d1 G1)) as P1. pose proof (fin_geq _ _ _ fin_quarter (H2 d2 G2)) as P2.
  cbn [ewma_run]. unfold ewma_update, weight_apply, ewma_new. cbn [ew_weight ew_time ew_value tw_weight tw_scale scale_nanos].
  rewrite E1. cbn [obind ew_weight ew_time ew_value tw_weight tw_scale scale_nanos]. rewrite E2. cbn [obind].
  eexists. split; [reflexivity|]. split.
  - cbn [ewma_get ew_value].
    pose proof (ewma_step _ _ _ _ _ _ P1 (fin_int 8 ltac:(lia)) (fin_zero 53 1024) (or_introl eq_refl) eq_refl ltac:(lra)) as S1.
    replace (/ 2 * 8) with (bpow radix2 2) in S1 by (change (bpow radix2 2) with 4; lra).
    specialize (S1 (rd_pow2 2 ltac:(lia))).
    pose proof (ewma_step _ _ _ _ _ _ P2 S1 (fin_zero 53 1024) (or_intror eq_refl) eq_refl) as S2.
    change (bpow radix2 2) with 4 in *. specialize (S2 ltac:(lra)).
    replace (/ 4 * 4) with (bpow radix2 0) in S2 by (change (bpow radix2 0) with 1; lra).
    specialize (S2 (rd_pow2 0 ltac:(lia))). destruct S2 as [_ S2]. exact S2.
  - cbn [ewma]. unfold halving. change (Z.to_nat ((one_s - 0) / one_s)) with 1%nat. change (Z.to_nat ((two_s - one_s) / one_s)) with 1%nat.
    cbn [pow]. lra.
Qed.

(** What the code computes: every update decays by the time since creation. *)
Theorem C76_decays_by_age_partial : forall powf m s x t s',
  ewma_update powf m s x t = Ret s' -> ew_time s' = ew_time s /\
  exists d, diff_real m (scale_nanos (tw_scale (ew_weight s))) t (ew_time s) = Ret d /\
    ewma_get s' = (let p := powf (tw_weight (ew_weight s)) d in
                   gadd (gmul p (ewma_get s)) (gmul (gsub (gof_Z 1) p) x)).
Proof.
  intros powf m s x t s'. unfold ewma_update, weight_apply.
  destruct (diff_real m _ t (ew_time s)) as [d| |] eqn:E; cbn [obind]; intros H; inversion H; subst; clear H.
  split; [reflexivity|]. exists d. split; reflexivity.
Qed.

(** An observation stamped before the creation time: a debug build panics. *)
Theorem C76_backward_time_refuted : forall powf s x t, (t < ew_time s)%Z ->
  ewma_update powf Checked s x t = Panic.
Proof.
  intros powf s x t H. unfold ewma_update, weight_apply, diff_real, diff_in, usub.
  destruct (Z.leb_spec (ew_time s) t); [lia|]. reflexivity.
Qed.

(** The moving sum: 8 observed after one second, nothing after two: the exact
    half-life sum is 4, the code's is 2. *)
Theorem C76_sum_stale_timestamp_refuted : forall powf, half_life powf ->
  exists s, ewms_run powf Checked (ewms_new (TsWeight half Second) 0) [(one_s, gof_Z 8); (two_s, gzero)] = Ret s /\
    B2R (es_sum s) = 2 /\ 0 * halving (one_s - 0) + 8 = 8 /\ 8 * halving (two_s - one_s) + 0 = 4.
Proof.
  intros powf [H1 H2].
  assert (E1 : exists d, diff_real Checked second_scale one_s 0 = Ret d /\ geq d (gof_Z 1) = true).
  { exists (gadd (gof_Z 1) (gdiv (gof_Z 0) (gof_Z second_scale))). split; [reflexivity|]. vm_compute. reflexivity. }
  assert (E2 : exists d, diff_real Checked second_scale two_s 0 = Ret d /\ geq d (gof_Z 2) = true).
  { exists (gadd (gof_Z 2) (gdiv (gof_Z 0) (gof_Z second_scale))). split; [reflexivity|]. vm_compute. reflexivity. }
  destruct E1 as (d1 & E1 & G1). destruct E2 as (d2 & E2 & G2).
  pose proof (fin_geq _ _ _ fin_half (H1 d1 G1)) as P1. pose proof (fin_geq _ _ _ fin_quarter (H2 d2 G2)) as P2.
  cbn [ewms_run]. unfold ewms_update, weight_apply, ewms_new. cbn [es_weight es_time es_sum tw_weight tw_scale scale_nanos].
  rewrite E1. cbn [obind es_weight es_time es_sum tw_weight tw_scale scale_nanos]. rewrite E2. cbn [obind].
  eexists. split; [reflexivity|]. unfold previous_weight. split; [|split].
  - cbn [es_sum].
    pose proof (fin_mul 53 1024 _ _ _ _ P1 (fin_zero 53 1024)) as A. rewrite Rmult_0_r in A.
    specialize (A ltac:(rewrite Rabs_R0; apply bpow_ge_0)). rewrite rnd_0 in A by typeclasses eauto.
    assert (H8 : 8 <= IZR (2 ^ 200)) by (apply (IZR_le 8); lia).
    pose proof (fin_add 53 1024 _ _ _ _ A (fin_int 8 ltac:(lia)) ltac:(apply huge64; rewrite Rabs_pos_eq; lra)) as B.
    rewrite Rplus_0_l, (rnd_int 53 1024 8) in B by lia.
    pose proof (fin_mul 53 1024 _ _ _ _ P2 B ltac:(apply huge64; rewrite Rabs_pos_eq; lra)) as C.
    replace (/ 4 * 8) with 2 in C by lra. rewrite (rnd_int 53 1024 2) in C by lia.
    pose proof (fin_add 53 1024 _ _ _ _ C (fin_zero 53 1024) ltac:(apply huge64; rewrite Rabs_pos_eq; lra)) as D.
    rewrite Rplus_0_r, (rnd_int 53 1024 2) in D by lia. exact (proj2 D).
  - lra.
  - unfold halving. change (Z.to_nat ((two_s - one_s) / one_s)) with 1%nat. cbn [pow]. lra.
Qed.

(** A [powf] meeting the hypotheses, and a history: 10, then 12 and 11. *)
Definition toy_powf (w d : f64) : f64 :=
  if geq d (gof_Z 1) then half else if geq d (gof_Z 2) then gmul half half else gof_Z 0.
Example C75_hypotheses_met : decays toy_powf half /\ half_life toy_powf /\
  bpow radix2 (-900) <= 10 * (1 - e50) ^ 2 /\ 12 * (1 + e50) ^ 2 <= bpow radix2 1000 /\
  match ewma_run toy_powf Wrapping (ewma_new (TsWeight half Second) (gof_Z 10) 5) [(1000000005%Z, gof_Z 12); (2000000005%Z, gof_Z 11)] with
  | Ret s => geq (ewma_get s) (gof_Z 11) | _ => false end = true.
Proof.
  assert (Z0 : fin64 (gof_Z 0) 0) by (apply (fin_int 0); lia).
  assert (e0 : 0 < e50 < / 2).
  { unfold e50. split; [apply Rinv_0_lt_compat; apply IZR_lt; reflexivity|].
    apply Rinv_lt_contravar; [apply Rmult_lt_0_compat; [lra|apply IZR_lt; reflexivity]|apply IZR_lt; reflexivity]. }
  split; [|split; [|split; [|split]]].
  - intros d r _ _. unfold toy_powf. destruct (geq d (gof_Z 1)); [exists (/ 2); split; [apply fin_half|lra]|].
    destruct (geq d (gof_Z 2)); [exists (/ 4); split; [apply fin_quarter|lra]|exists 0; split; [exact Z0|lra]].
  - split; intros d E; unfold toy_powf.
    + rewrite E. vm_compute. reflexivity.
    + destruct (geq d (gof_Z 1)) eqn:E1.
      * exfalso. pose proof (fin_geq _ _ _ (fin_int 1 ltac:(lia)) E1) as A. pose proof (fin_geq _ _ _ (fin_int 2 ltac:(lia)) E) as B.
        pose proof (fin_fun 53 1024 _ _ _ A B). lra.
      * rewrite E. vm_compute. reflexivity.
  - apply Rle_trans with 1; [apply (bpow_le radix2 (-900) 0); lia|]. cbn [pow]. nra.
  - apply Rle_trans with (bpow radix2 6); [change (bpow radix2 6) with 64; cbn [pow]; nra|apply bpow_le; lia].
  - vm_compute. reflexivity.
Qed.

Print Assumptions C75_average_stays_in_range.
Print Assumptions C76_stale_timestamp_refuted.
Print Assumptions C76_decays_by_age_partial.
Print Assumptions C76_backward_time_refuted.
Print Assumptions C76_sum_stale_timestamp_refuted.
