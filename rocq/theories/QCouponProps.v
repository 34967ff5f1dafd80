(** QCouponProps.v -- C145, C146: floating coupons. *)
From Coq Require Import ZArith List Reals Lra Lia Bool Ascii.
From Flocq Require Import Core IEEE754.BinarySingleNaN.
From Verif Require Import Base CivilSpec FloatModel FloatFacts KrxModel QDateModel QDateProofs QCalModel QCalSpec QCalProps QPeriodModel QPeriodSpec QPeriodProps QYearModel QYearSpec QYearProps QSchedModel QInterpModel QInterpSpec QDivModel
  QCurveModel QCurveSpec QCurveFacts QFloatErr QLinProps QRollProofs QCurveExp QCurveProps QCurveFwdProps QBondModel QBondSpec QBondProofs QBondPriceProps QBondProps.
Import ListNotations.
Open Scope R_scope.

(** ** C145: coupons fixed once *)
Lemma sum_times : forall (r s f : f32), finite r -> finite s -> finite f -> Rabs (value r) <= 2 ^ 30 -> Rabs (value s) <= 2 ^ 30 -> Rabs (value f) <= 2 ^ 30 ->
  exists v, fn (gmul (gadd r s) f) v /\ Rabs (v - (value r + value s) * value f) <= Rabs ((value r + value s) * value f) * (2.001 * e24) + tiny.
Proof.
  intros r s f Fr Fs Ff Br Bs Bf. rewrite p30 in *. pose proof (Rabs_triang (value r) (value s)) as T.
  destruct (add_err r s _ _ (conj Fr eq_refl) (conj Fs eq_refl)) as (v1 & d1 & F1 & D1 & V1); [apply two100_127; unfold two100; fold (value r) (value s); lra|]. fold (value r) (value s) in V1.
  assert (B1 : Rabs v1 <= 1.001 * Rabs (value r + value s)) by (rewrite V1; apply (near_bound 1); lra).
  destruct (mul_err _ f _ _ F1 (conj Ff eq_refl)) as (v2 & d2 & t & F2 & D2 & T2 & V2).
  { fold (value f). rewrite Rabs_mult. apply two100_127. apply Rle_trans with (4294967296 * 1073741824); [apply Rmult_le_compat; try apply Rabs_pos; lra|unfold two100; lra]. }
  fold (value f) in V2. exists v2. split; [exact F2|].
  destruct (err_mul 1 1 d1 d2) as (z & Z & Ez); [lra|lra|rewrite Rmult_1_l; exact D1|rewrite Rmult_1_l; exact D2|].
  rewrite V2, V1. set (q := (value r + value s) * value f). replace ((value r + value s) * (1 + d1) * value f * (1 + d2) + t - q) with (q * ((1 + d1) * (1 + d2) - 1) + t) by (unfold q; ring).
  rewrite Ez. replace (1 + z - 1) with z by ring. apply Rle_trans with (1 := Rabs_triang _ _). rewrite Rabs_mult. apply Rplus_le_compat; [|exact T2]. apply Rmult_le_compat_l; [apply Rabs_pos|lra].
Qed.
Lemma tiny_149 : tiny <= / 2 ^ 149. Proof. exact tiny_eq. Qed.
Definition usual (x : f32) : Prop := finite x /\ Rabs (value x) <= 2 ^ 30.
Lemma times_usual : forall r s f, usual r -> usual s -> usual f ->
  exists x, gmul (gadd r s) f = x /\ finite x /\ Rabs (value x - (value r + value s) * value f) <= Rabs ((value r + value s) * value f) * (3 / 2 ^ 24) + / 2 ^ 149.
Proof.
  intros r s f [Fr Br] [Fs Bs] [Ff Bf]. destruct (sum_times r s f Fr Fs Ff Br Bs Bf) as (v & [Fv Vv] & Q). eexists. split; [reflexivity|]. split; [exact Fv|]. unfold value at 1. rewrite Vv.
  apply Rle_trans with (1 := Q). apply Rplus_le_compat; [|exact tiny_149]. apply Rmult_le_compat_l; [apply Rabs_pos|]. assert (P : 2 ^ 24 = 16777216) by (rewrite pow_IZR; reflexivity). rewrite P. unfold e24. lra.
Qed.
(** no spread is a spread of zero *)
Definition spread_of (s : option f32) (x : f32) : Prop := s = Some x \/ s = None /\ x = gof_Z 0.
Lemma spread_match : forall s x, spread_of s x -> match s with Some y => y | None => gof_Z 0 end = x.
Proof. intros s x [-> | [-> ->]]; reflexivity. Qed.
(** fixed on the pricing date or later: the forward rate of the fixing over the tenor *)
Theorem c145_future : forall f_ln tenor c spread s eval fwd past pricing a dc gap e r f, (instant pricing <= instant (fixing_date c))%Z -> spread_of spread s ->
  add_period (fixing_date c) tenor = Ret e -> forward_dates f_ln eval fwd (fixing_date c) e CSimple = Ret (ROk r) -> year_fraction a (calc_start_date c) (calc_end_date c) dc = Ret (ROk f) -> usual r -> usual s -> usual f ->
  exists x, coupon_amount f_ln tenor c spread eval fwd past pricing None a dc gap = Ret (ROk x) /\ finite x /\
    Rabs (value x - (value r + value s) * value f) <= Rabs ((value r + value s) * value f) * (3 / 2 ^ 24) + / 2 ^ 149.
Proof.
  intros f_ln tenor c spread s eval fwd past pricing a dc gap e r f L S E R Y Ur Us Uf. destruct (times_usual r s f Ur Us Uf) as (x & X & Q). exists x. split; [|exact Q].
  unfold coupon_amount. rewrite (spread_match _ _ S). unfold term_coupon. rewrite E. cbn [obind]. rewrite (proj2 (Z.ltb_ge _ _) L), R. cbn [rbind]. rewrite Y. cbn [rbind]. rewrite X. reflexivity.
Qed.
(** fixed before: the recorded rate of the fixing day, whatever the curve *)
Theorem c145_recorded : forall f_ln tenor c spread s eval fwd past pricing a dc gap e r f, (instant (fixing_date c) < instant pricing)%Z -> spread_of spread s ->
  add_period (fixing_date c) tenor = Ret e -> close_on past (od_day (fixing_date c)) = Some r -> year_fraction a (calc_start_date c) (calc_end_date c) dc = Ret (ROk f) -> usual r -> usual s -> usual f ->
  exists x, coupon_amount f_ln tenor c spread eval fwd past pricing None a dc gap = Ret (ROk x) /\ finite x /\
    Rabs (value x - (value r + value s) * value f) <= Rabs ((value r + value s) * value f) * (3 / 2 ^ 24) + / 2 ^ 149.
Proof.
  intros f_ln tenor c spread s eval fwd past pricing a dc gap e r f L S E R Y Ur Us Uf. destruct (times_usual r s f Ur Us Uf) as (x & X & Q). exists x. split; [|exact Q].
  unfold coupon_amount. rewrite (spread_match _ _ S). unfold term_coupon. rewrite E. cbn [obind]. rewrite (proj2 (Z.ltb_lt _ _) L), R. cbn [rbind]. rewrite Y. cbn [rbind]. rewrite X. reflexivity.
Qed.
(** REFUTED: if nothing is recorded, the warning says that the spot rate is
    used.  It is the rate from the evaluation date to the end of the period
    that began at the fixing, however short; once that end has passed it is an
    error *)
Theorem c145_missing_refuted : forall f_ln tenor c spread s eval fwd past pricing a dc gap e, (instant (fixing_date c) < instant pricing)%Z -> spread_of spread s ->
  add_period (fixing_date c) tenor = Ret e -> close_on past (od_day (fixing_date c)) = None ->
  ((instant e < instant eval)%Z -> coupon_amount f_ln tenor c spread eval fwd past pricing None a dc gap = Ret RErr) /\
  (forall r f, (instant eval <= instant e)%Z -> forward_dates f_ln eval fwd eval e CSimple = Ret (ROk r) -> year_fraction a (calc_start_date c) (calc_end_date c) dc = Ret (ROk f) ->
     coupon_amount f_ln tenor c spread eval fwd past pricing None a dc gap = Ret (ROk (gmul (gadd r s) f))).
Proof.
  intros f_ln tenor c spread s eval fwd past pricing a dc gap e L S E R. unfold coupon_amount. rewrite (spread_match _ _ S). unfold term_coupon. rewrite E. cbn [obind]. rewrite (proj2 (Z.ltb_lt _ _) L), R. split.
  - intro P. unfold forward_from. rewrite (proj2 (Z.ltb_lt _ _) P). reflexivity.
  - intros r f P F Y. unfold forward_from. rewrite (proj2 (Z.ltb_ge _ _) P), F. cbn [rbind]. rewrite Y. reflexivity.
Qed.

(** ** C146: compounded overnight coupons *)
(** not begun: the mean of the first and the last forward rate *)
Theorem c146_future : forall f_ln tenor comp c spread s eval fwd past pricing a dc gap e1 lf e2 r1 r2 f, (instant pricing <= instant (fixing_date c))%Z -> spread_of spread s ->
  add_period (fixing_date c) tenor = Ret e1 -> forward_dates f_ln eval fwd (fixing_date c) e1 CSimple = Ret (ROk r1) -> add_days (calc_end_date c) (- gap) = Ret lf -> add_period lf tenor = Ret e2 ->
  forward_dates f_ln eval fwd lf e2 CSimple = Ret (ROk r2) -> year_fraction a (calc_start_date c) (calc_end_date c) dc = Ret (ROk f) ->
  finite r1 -> finite r2 -> Rabs (value r1) <= 2 ^ 29 -> Rabs (value r2) <= 2 ^ 29 -> usual s -> usual f ->
  let rate := (value r1 + value r2) / 2 in
  exists x, coupon_amount f_ln tenor c spread eval fwd past pricing (Some comp) a dc gap = Ret (ROk x) /\ finite x /\
    Rabs (value x - (rate + value s) * value f) <= (Rabs rate + Rabs (value s)) * Rabs (value f) * (6 / 2 ^ 24) + (1 + Rabs (value f)) / 2 ^ 148.
Proof.
  intros f_ln tenor comp c spread s eval fwd past pricing a dc gap e1 lf e2 r1 r2 f L S A1 R1 D A2 R2 Y F1 F2 B1 B2 Us Uf rate.
  assert (P29 : 2 ^ 29 = 536870912) by (rewrite pow_IZR; reflexivity). rewrite P29 in *.
  destruct (add_err r1 r2 _ _ (conj F1 eq_refl) (conj F2 eq_refl)) as (v & d & Fv & Dv & Ev); [apply two100_127; unfold two100; fold (value r1) (value r2); pose proof (Rabs_triang (value r1) (value r2)); lra|]. fold (value r1) (value r2) in Ev.
  assert (N2 : fn (gof_Z 2) 2) by (destruct (small_fin 2 ltac:(lia)) as [X1 X2]; split; assumption).
  assert (BV : Rabs v <= 1.001 * Rabs (value r1 + value r2)) by (rewrite Ev; apply (near_bound 1); lra). pose proof (Rabs_triang (value r1) (value r2)) as TR.
  destruct (div_err _ _ _ _ Fv N2 ltac:(lra)) as (w & d' & t & Fw & Dw & Tw & Ew); [apply two100_127; unfold two100, Rdiv; rewrite Rabs_mult, (Rabs_pos_eq (/ 2)) by lra; lra|].
  destruct (err_mul 1 1 d d') as (z & Z & Ez); [lra|lra|rewrite Rmult_1_l; exact Dv|rewrite Rmult_1_l; exact Dw|].
  assert (W : w = rate * (1 + z) + t) by (rewrite Ew, Ev, <- Ez; unfold rate; field).
  pose proof tiny_1 as T1. pose proof (QBondProofs.tiny_small) as TS.
  assert (RB : Rabs rate <= 536870912) by (unfold rate, Rdiv; rewrite Rabs_mult, (Rabs_pos_eq (/ 2)) by lra; lra).
  assert (WE : Rabs (w - rate) <= Rabs rate * (2.001 * e24) + tiny).
  { rewrite W. replace (rate * (1 + z) + t - rate) with (rate * z + t) by ring. apply Rle_trans with (1 := Rabs_triang _ _). rewrite Rabs_mult. apply Rplus_le_compat; [|exact Tw]. apply Rmult_le_compat_l; [apply Rabs_pos|lra]. }
  assert (WB : Rabs w <= 1073741824).
  { replace w with (rate + (w - rate)) by ring. apply Rle_trans with (1 := Rabs_triang _ _). assert (Rabs rate * (2.001 * e24) <= 536870912 * (2.001 * e24)) by (apply Rmult_le_compat_r; [unfold e24; lra|exact RB]). unfold e24 in *. lra. }
  set (rt := gdiv (gadd r1 r2) (gof_Z 2)) in *. assert (Fw' := Fw). destruct Fw' as [Frt Vrt].
  assert (Ur : usual rt) by (split; [exact Frt|]; unfold value; rewrite Vrt, p30; exact WB).
  destruct (times_usual rt s f Ur Us Uf) as (x & X & Fx & Q). exists x. split; [|split; [exact Fx|]].
  - unfold coupon_amount. rewrite (spread_match _ _ S). rewrite (proj2 (Z.leb_le _ _) L). unfold future_overnight. rewrite A1. cbn [obind]. rewrite R1. cbn [rbind]. rewrite D. cbn [obind]. rewrite A2. cbn [obind]. rewrite R2. cbn [rbind]. rewrite Y. cbn [rbind]. fold rt. rewrite X. reflexivity.
  - unfold value at 2 in Q. unfold value at 4 in Q. rewrite Vrt in Q. set (q := Rabs (value f)) in *. pose proof (Rabs_pos (value f)) as Pq. fold q in Pq. pose proof (Rabs_pos rate) as Pr. pose proof (Rabs_pos (value s)) as Ps.
    set (k := (Rabs rate + Rabs (value s)) * q).
    assert (K0 : 0 <= k) by (unfold k; apply Rmult_le_pos; lra).
    assert (X1 : Rabs ((w + value s) * value f) <= 1.001 * k + tiny * q).
    { rewrite Rabs_mult. fold q. replace (1.001 * k + tiny * q) with ((1.001 * (Rabs rate + Rabs (value s)) + tiny) * q) by (unfold k; ring). apply Rmult_le_compat_r; [exact Pq|].
      replace (w + value s) with (rate + value s + (w - rate)) by ring. apply Rle_trans with (1 := Rabs_triang _ _). pose proof (Rabs_triang rate (value s)).
      assert (Rabs rate * (2.001 * e24) <= Rabs rate * / 1000) by (apply Rmult_le_compat_l; [lra|unfold e24; lra]). lra. }
    assert (X2 : Rabs ((w + value s) * value f - (rate + value s) * value f) <= k * (2.001 * e24) + tiny * q).
    { replace ((w + value s) * value f - (rate + value s) * value f) with ((w - rate) * value f) by ring. rewrite Rabs_mult. fold q.
      apply Rle_trans with ((Rabs rate * (2.001 * e24) + tiny) * q); [apply Rmult_le_compat_r; [exact Pq|exact WE]|]. rewrite Rmult_plus_distr_r. apply Rplus_le_compat_r.
      replace (Rabs rate * (2.001 * e24) * q) with (Rabs rate * q * (2.001 * e24)) by ring. apply Rmult_le_compat_r; [unfold e24; lra|]. unfold k. apply Rmult_le_compat_r; lra. }
    replace (value x - (rate + value s) * value f) with ((value x - (w + value s) * value f) + ((w + value s) * value f - (rate + value s) * value f)) by ring.
    apply Rle_trans with (1 := Rabs_triang _ _). assert (P24 : 2 ^ 24 = 16777216) by (rewrite pow_IZR; reflexivity). rewrite P24 in *.
    pose proof tiny_149 as T9. assert (H148 : / 2 ^ 148 = 2 * / 2 ^ 149) by (change (2 ^ 149) with (2 * 2 ^ 148); field; apply pow_nonzero; lra).
    unfold Rdiv at 2. rewrite H148. set (z9 := / 2 ^ 149) in *.
    assert (TQ : tiny * q <= z9 * q) by (apply Rmult_le_compat_r; [exact Pq|exact T9]). assert (TQ0 : 0 <= tiny * q) by (apply Rmult_le_pos; lra).
    set (tq := tiny * q) in *. replace ((1 + q) * (2 * z9)) with (2 * z9 + 2 * (z9 * q)) by ring. set (zq := z9 * q) in *.
    assert (X3 : Rabs ((w + value s) * value f) * (3 / 16777216) <= (1.001 * k + tq) * (3 / 16777216)) by (apply Rmult_le_compat_r; [lra|exact X1]).
    unfold e24 in *. clearbody k tq zq z9. clear - Q X2 X3 TQ TQ0 K0 T9 T1. lra.
Qed.

(** begun: the product over the sub-periods, less one *)
Lemma compounds : forall f_ln tenor comp spread eval fwd past pricing a dc gap spot upto start l, subperiods (overnight_rate f_ln tenor eval fwd past pricing a gap spot) comp a dc upto start l ->
  forall v, exists d v', run_n (overnight_turn f_ln tenor comp upto spread eval fwd past pricing a dc gap spot) (length l) (start, v) = Next (d, v') /\ (instant upto <= instant d)%Z /\
    v' = fold_left (fun v p => gmul v (gadd (gof_Z 1) (gmul (gadd (fst p) spread) (snd p)))) l v.
Proof.
  intros f_ln tenor comp spread eval fwd past pricing a dc gap spot upto start l H. induction H as [start L|start e next r f l L E N Y R H IH]; intro v.
  - exists start, v. split; [reflexivity|]. split; [exact L|reflexivity].
  - cbn [length run_n fold_left fst snd].
    assert (T : overnight_turn f_ln tenor comp upto spread eval fwd past pricing a dc gap spot (start, v) = Next (next, gmul v (gadd (gof_Z 1) (gmul (gadd r spread) f)))).
    { unfold overnight_turn. rewrite (proj2 (Z.ltb_lt _ _) L). destruct R as (d & fx & A & J & C). rewrite A. cbn [turn_bind]. rewrite J. cbn [turn_bind]. rewrite E. cbn [turn_bind].
      assert (MN : min_offsetdatetime e upto = next) by (unfold min_offsetdatetime; destruct N as [[-> N]|[-> N]]; [rewrite (proj2 (Z.ltb_lt _ _) N)|rewrite (proj2 (Z.ltb_ge _ _) N)]; reflexivity).
      rewrite MN, Y. cbn [turn_bind]. destruct C as [[C D]|[(C & D & ->)|(C & g & G & D)]].
      - rewrite (proj2 (Z.ltb_lt _ _) C), D. reflexivity.
      - rewrite (proj2 (Z.ltb_lt _ _) C), D. reflexivity.
      - rewrite (proj2 (Z.ltb_ge _ _) C), G. cbn [obind]. rewrite D. reflexivity. }
    rewrite T. destruct (IH (gmul v (gadd (gof_Z 1) (gmul (gadd r spread) f)))) as (d & v' & RN & LD & V). exists d, v'. auto.
Qed.
Lemma run_pow_while : forall {T R} (f : T -> turn T R) k n t t' r, run_n f n t = Next t' -> f t' = Stop r -> (Z.of_nat n < 2 ^ Z.of_nat k)%Z -> run_pow k f t = Stop r.
Proof.
  intros T R f k n t t' r H S N. rewrite run_pow_n.
  assert (P : (Z.of_nat (2 ^ k) = 2 ^ Z.of_nat k)%Z) by (rewrite Nat2Z.inj_pow; reflexivity).
  set (q := (2 ^ k)%nat) in *. clearbody q. assert (E : exists j, q = (n + Datatypes.S j)%nat) by (exists (q - n - 1)%nat; lia). destruct E as [j ->].
  rewrite run_n_add, H. cbn [run_n]. rewrite S. reflexivity.
Qed.
Lemma run_while : forall {T R} (f : T -> turn T R) n t t' r, run_n f n t = Next t' -> f t' = Stop r -> (Z.of_nat n < 16777216)%Z -> while_loop f t = r.
Proof.
  intros T R f n t t' r H S N. unfold while_loop. rewrite (run_pow_while f 24 n t t' r H S); [reflexivity|]. exact N.
Qed.
Lemma band_more : forall k n t, band n t -> band (k + n) t.
Proof.
  intros k n t B. induction k as [|k IH]; [exact B|]. cbn [Nat.add]. replace t with (t * (1 + 0)) by ring. apply band_step; [exact IH|]. rewrite Rabs_R0. unfold e24. lra.
Qed.
Lemma band_3 : forall n t q, band n t -> Rabs q <= 3 * e24 -> band (3 + n) (t * (1 + q)).
Proof.
  intros n t q H D. unfold band in *. pose proof (pow_ge_1 n) as P. pose proof e24_pos as E0.
  replace (t * (1 + q) - 1) with ((t - 1) * (1 + q) + q) by ring. apply Rle_trans with (1 := Rabs_triang _ _). rewrite Rabs_mult.
  assert (A : Rabs (1 + q) <= 1 + 3 * e24) by (apply Rle_trans with (1 := Rabs_triang _ _); rewrite Rabs_R1; lra).
  assert (B : Rabs (t - 1) * Rabs (1 + q) <= ((1 + e24) ^ n - 1) * (1 + 3 * e24)) by (apply Rmult_le_compat; auto using Rabs_pos).
  cbn [Nat.add pow]. set (p := (1 + e24) ^ n) in *. clearbody p.
  assert (X : p * (1 + 3 * e24) <= p * ((1 + e24) * ((1 + e24) * (1 + e24)))).
  { apply Rmult_le_compat_l; [lra|]. assert (0 <= e24 * e24) by (apply Rmult_le_pos; lra). assert (0 <= e24 * e24 * e24) by (apply Rmult_le_pos; lra). lra. }
  lra.
Qed.
(** a sub-period of the usual size: it earns at most one half *)
Definition mild_period (s : f32) (p : f32 * f32) : Prop := usual (fst p) /\ usual (snd p) /\ Rabs ((value (fst p) + value s) * value (snd p)) <= / 2.
Lemma growth_factor : forall s p, usual s -> mild_period s p -> exists q d, fn (gadd (gof_Z 1) (gmul (gadd (fst p) s) (snd p))) ((1 + (value (fst p) + value s) * value (snd p)) * (1 + q) * (1 + d)) /\ Rabs q <= 3 * e24 /\ Rabs d <= e24.
Proof.
  intros s [r f] [Fs Bs] ([Fr Br] & [Ff Bf] & C). cbn [fst snd] in *. destruct (sum_times r s f Fr Fs Ff Br Bs Bf) as (v & Fv & Q). set (c := (value r + value s) * value f) in *. clearbody c.
  pose proof tiny_1 as T1. assert (TS : tiny <= e24 * / 100) by (pose proof QBondProofs.tiny_small; unfold e24 in *; lra).
  assert (V : Rabs (v - c) <= / 2 * (2.001 * e24) + e24 * / 100).
  { apply Rle_trans with (1 := Q). apply Rplus_le_compat; [|exact TS]. apply Rmult_le_compat_r; [unfold e24; lra|exact C]. }
  assert (C' := Rabs_le_inv _ _ C). assert (V' := Rabs_le_inv _ _ V).
  destruct (add_err (gof_Z 1) (gmul (gadd r s) f) 1 v one_fn Fv) as (w & d & Fw & D & W). { apply two100_127. unfold two100. apply Rabs_le. unfold e24 in V'. lra. }
  exists ((v - c) / (1 + c)), d. split; [|split; [|exact D]].
  - replace ((1 + c) * (1 + (v - c) / (1 + c)) * (1 + d)) with w by (rewrite W; field; lra). exact Fw.
  - unfold Rdiv. rewrite Rabs_mult. assert (I : 0 < / (1 + c) <= 2). { split; [apply Rinv_0_lt_compat; lra|]. replace 2 with (/ / 2) by field. apply Rinv_le; lra. }
    rewrite (Rabs_pos_eq (/ (1 + c))) by lra. apply Rle_trans with ((/ 2 * (2.001 * e24) + e24 * / 100) * 2); [apply Rmult_le_compat; try lra; apply Rabs_pos|unfold e24; lra].
Qed.
Lemma fold_growth : forall s l v E t n, usual s -> Forall (mild_period s) l -> fn v (E * t) -> band n t -> (Z.of_nat (n + 5 * length l) <= 4194304)%Z ->
  (forall l1 l2, l = l1 ++ l2 -> lo <= E * growth (value s) l1 <= hi) ->
  exists t', fn (fold_left (fun v p => gmul v (gadd (gof_Z 1) (gmul (gadd (fst p) s) (snd p)))) l v) (E * growth (value s) l * t') /\ band (n + 5 * length l) t'.
Proof.
  intros s l. induction l as [|p l IH]; intros v E t n Us F Fv B N H; cbn [fold_left growth fold_right length].
  - exists t. rewrite Rmult_1_r. split; [exact Fv|]. rewrite Nat.add_0_r. exact B.
  - destruct (growth_factor s p Us (Forall_inv F)) as (q & d & Fg & Q & D). set (g := 1 + (value (fst p) + value s) * value (snd p)) in *.
    assert (R1 : lo <= E * g <= hi). { pose proof (H [p] l eq_refl) as R. cbn [growth fold_right] in R. fold g in R. rewrite Rmult_1_r in R. exact R. }
    assert (B1 : band (S (3 + n)) (t * (1 + q) * (1 + d))) by (apply band_step; [apply band_3|]; assumption).
    cbn [length] in N. assert (NN : (Z.of_nat (S (3 + n)) <= 4194304)%Z) by lia. pose proof (band_range _ _ NN B1) as T. destruct (in_reach (E * g) _ R1 T) as [S1 S2].
    destruct (rnd_rel (E * g * (t * (1 + q) * (1 + d))) S1) as (d' & D' & Q').
    assert (B2 : band (S (S (3 + n))) (t * (1 + q) * (1 + d) * (1 + d'))) by (apply band_step; assumption).
    assert (F2 : fn (gmul v (gadd (gof_Z 1) (gmul (gadd (fst p) s) (snd p)))) (E * g * (t * (1 + q) * (1 + d) * (1 + d')))).
    { replace (E * g * (t * (1 + q) * (1 + d) * (1 + d'))) with (rnd 24 128 (E * t * (g * (1 + q) * (1 + d)))).
      - apply fin_mul; auto. replace (E * t * (g * (1 + q) * (1 + d))) with (E * g * (t * (1 + q) * (1 + d))) by ring. exact S2.
      - replace (E * t * (g * (1 + q) * (1 + d))) with (E * g * (t * (1 + q) * (1 + d))) by ring. rewrite Q'. ring. }
    destruct (IH _ (E * g) _ (5 + n)%nat Us (Forall_inv_tail F) F2 B2 ltac:(lia)) as (t' & F3 & B3).
    { intros l1 l2 EL. pose proof (H (p :: l1) l2 ltac:(rewrite EL; reflexivity)) as R. cbn [growth fold_right] in R. fold g in R. rewrite Rmult_assoc. exact R. }
    exists t'. split; [fold (growth (value s) l); rewrite <- Rmult_assoc; exact F3|]. replace (n + 5 * S (length l))%nat with (5 + n + 5 * length l)%nat by lia. exact B3.
Qed.
Theorem c146_product : forall f_ln tenor comp c spread s eval fwd past pricing a dc gap e spot l, (instant (fixing_date c) < instant pricing)%Z -> spread_of spread s ->
  add_period pricing comp = Ret e -> forward_dates f_ln eval fwd pricing e CSimple = Ret (ROk spot) ->
  subperiods (overnight_rate f_ln tenor eval fwd past pricing a gap spot) comp a dc (calc_end_date c) (calc_start_date c) l ->
  usual s -> Forall (mild_period s) l -> (Z.of_nat (length l) <= 800000)%Z -> (forall l1 l2, l = l1 ++ l2 -> / 2 ^ 100 <= growth (value s) l1 <= 2 ^ 100) ->
  let G := growth (value s) l in
  exists x, coupon_amount f_ln tenor c spread eval fwd past pricing (Some comp) a dc gap = Ret (ROk x) /\ finite x /\ Rabs (value x - (G - 1)) <= G * (7 * INR (length l) / 2 ^ 24) + Rabs (G - 1) / 2 ^ 24.
Proof.
  intros f_ln tenor comp c spread s eval fwd past pricing a dc gap e spot l L S E SP H Us F N R G.
  destruct (compounds f_ln tenor comp s eval fwd past pricing a dc gap spot (calc_end_date c) (calc_start_date c) l H (gof_Z 1)) as (d & v' & RN & LD & V).
  assert (LOHI : lo = / 2 ^ 100 /\ hi = 2 ^ 100).
  { unfold lo, hi. change (-100)%Z with (Z.opp 100). rewrite bpow_opp. change (bpow radix2 100) with (IZR (Z.pow_pos 2 100)). assert (P : 2 ^ 100 = IZR (Z.pow_pos 2 100)) by (rewrite pow_IZR; reflexivity). rewrite P. auto. }
  destruct LOHI as [LO HI].
  destruct (fold_growth s l (gof_Z 1) 1 1 0 Us F) as (t & Ft & B).
  { rewrite Rmult_1_r. exact one_fn. } { exact band_0. } { lia. }
  { intros l1 l2 EL. rewrite Rmult_1_l, LO, HI. exact (R l1 l2 EL). }
  rewrite Rmult_1_l in Ft. rewrite <- V in Ft. fold G in Ft. pose proof (R l [] ltac:(rewrite app_nil_r; reflexivity)) as RG. fold G in RG.
  assert (G0 : 0 < G) by (pose proof lo_pos; lra). cbn [Nat.add] in B.
  assert (NN : (Z.of_nat (5 * length l) <= 4194304)%Z) by lia.
  pose proof (band_linear _ _ NN B) as BL. pose proof (band_range _ _ NN B) as BR.
  assert (P100 : 2 ^ 100 = 1267650600228229401496703205376) by (rewrite pow_IZR; reflexivity).
  destruct (sub_err v' (gof_Z 1) _ 1 Ft one_fn) as (w & z & Fw & Z & W).
  { apply Rle_trans with (hi * 2); [|exact hi_huge]. rewrite HI. assert (0 <= G * t <= 2 ^ 100 * (4 / 3)) by (split; [apply Rmult_le_pos; lra|apply Rmult_le_compat; lra]). apply Rabs_le. rewrite P100 in *. lra. }
  exists (gsub v' (gof_Z 1)). split; [|destruct Fw as [Fx Vx]; split; [exact Fx|]].
  - unfold coupon_amount. rewrite (spread_match _ _ S), (proj2 (Z.leb_gt _ _) L). unfold running_overnight. rewrite E. cbn [obind]. rewrite SP. cbn [rbind].
    apply (run_while _ _ _ _ _ RN); [|lia]. unfold overnight_turn. rewrite (proj2 (Z.ltb_ge _ _) LD). reflexivity.
  - unfold value. rewrite Vx, W. replace ((G * t - 1) * (1 + z) - (G - 1)) with (G * ((t - 1) * (1 + z)) + (G - 1) * z) by ring. apply Rle_trans with (1 := Rabs_triang _ _).
    assert (P24 : 2 ^ 24 = 16777216) by (rewrite pow_IZR; reflexivity). rewrite P24. rewrite !Rabs_mult, (Rabs_pos_eq G) by lra. apply Rplus_le_compat.
    + apply Rmult_le_compat_l; [lra|]. rewrite mult_INR in BL. replace (INR 5) with 5 in BL by (cbn; lra). pose proof (pos_INR (length l)) as I0. set (n := INR (length l)) in *.
      assert (Z1 : Rabs (1 + z) <= 1.001) by (apply Rle_trans with (1 := Rabs_triang _ _); rewrite Rabs_R1; unfold e24 in Z; lra).
      apply Rle_trans with (4 / 3 * (5 * n * e24) * 1.001); [apply Rmult_le_compat; auto using Rabs_pos|]. unfold e24. lra.
    + unfold Rdiv. apply Rmult_le_compat_l; [apply Rabs_pos|]. unfold e24 in Z. lra.
Qed.
(** REFUTED: a compounding tenor that does not move the date forward never
    ends; "0D" does not *)
Theorem c146_zero_refuted : forall f_ln tenor comp eval fwd past pricing a dc gap spot upto start r f s v, (instant start < instant upto)%Z -> add_period start comp = Ret start ->
  overnight_rate f_ln tenor eval fwd past pricing a gap spot start r -> year_fraction a start start dc = Ret (ROk f) ->
  forall n, exists w, run_n (overnight_turn f_ln tenor comp upto s eval fwd past pricing a dc gap spot) n (start, v) = Next (start, w).
Proof.
  intros f_ln tenor comp eval fwd past pricing a dc gap spot upto start r f s v L E R Y n. revert v. induction n as [|n IH]; intro v; [exists v; reflexivity|]. cbn [run_n].
  assert (T : overnight_turn f_ln tenor comp upto s eval fwd past pricing a dc gap spot (start, v) = Next (start, gmul v (gadd (gof_Z 1) (gmul (gadd r s) f)))).
  { unfold overnight_turn. rewrite (proj2 (Z.ltb_lt _ _) L). destruct R as (d & fx & A & J & C). rewrite A. cbn [turn_bind]. rewrite J. cbn [turn_bind]. rewrite E. cbn [turn_bind].
    assert (MN : min_offsetdatetime start upto = start) by (unfold min_offsetdatetime; rewrite (proj2 (Z.ltb_lt _ _) L); reflexivity).
    rewrite MN, Y. cbn [turn_bind]. destruct C as [[C D]|[(C & D & ->)|(C & g & G & D)]].
    - rewrite (proj2 (Z.ltb_lt _ _) C), D. reflexivity.
    - rewrite (proj2 (Z.ltb_lt _ _) C), D. reflexivity.
    - rewrite (proj2 (Z.ltb_ge _ _) C), G. cbn [obind]. rewrite D. reflexivity. }
  rewrite T. apply IH.
Qed.

(** ** Cases that meet the hypotheses *)
Definition bracketed (d1 d2 : odt) (x1 x2 : f32) : bool :=
  match get_time_difference ex_eval d1, get_time_difference ex_eval d2 with
  | Ret t1, Ret t2 => (instant d1 <=? instant d2)%Z && is_finite t1 && is_finite t2 && gle (gof_Z 0) t1 && gle t1 x1 && gle x2 t2 && gle t2 (gof_Z 50)
  | _, _ => false
  end.
Lemma bracket_forward : forall c t9 d1 d2 x1 x2, reached an_exp c -> Forall (fun r => 0 <= value r <= 0.1) (cv_rates c) -> nth_error (cv_times c) 28 = Some t9 -> 99 <= value t9 -> finite x1 -> finite x2 ->
  value x1 + / 512 <= value x2 -> bracketed d1 d2 x1 x2 = true -> exists y, forward_dates (fun x => x) ex_eval c d1 d2 CSimple = Ret (ROk y) /\ finite y /\ Rabs (value y) <= 2 ^ 29.
Proof.
  intros c t9 d1 d2 x1 x2 H RR H9 B9 F1 F2 L T. unfold bracketed in T. destruct (get_time_difference ex_eval d1) as [t1| |] eqn:E1; try discriminate T. destruct (get_time_difference ex_eval d2) as [t2| |] eqn:E2; try discriminate T.
  repeat (apply andb_true_iff in T; let X := fresh "T" in destruct T as [T X]). apply Z.leb_le in T. destruct (small_fin 50 ltac:(lia)) as [F50 R50]. unfold real_of in R50.
  apply (proj1 (fin_le 24 128 _ _ _ _ (conj T4 eq_refl) (conj F50 eq_refl))) in T0. apply (proj1 (fin_le 24 128 _ _ _ _ (conj F2 eq_refl) (conj T4 eq_refl))) in T1.
  apply (proj1 (fin_le 24 128 _ _ _ _ (conj T5 eq_refl) (conj F1 eq_refl))) in T2. apply (proj1 (fin_le 24 128 _ _ _ _ zero_fn (conj T5 eq_refl))) in T3. rewrite R50 in T0. unfold value in *. fold (value t1) (value t2) (value x1) (value x2) (value t9) in *.
  rewrite (c139_dates _ _ _ _ _ _ _ _ T E1 E2). assert (P18 : 2 ^ 18 = 262144) by (rewrite pow_IZR; reflexivity).
  destruct (c139_simple_refuted an_exp (fun x => x) c t1 t2 t9 an_exp_good H RR T5 T4 H9) as (d & y & Ed & Pd & Ey & Fy & Q); [lra|rewrite P18; lra|lra|].
  exists y. split; [exact Ey|]. split; [exact Fy|].
  destruct (between_value an_exp c t1 t2 t9 an_exp_good H RR T5 T4 H9) as (d' & Ed' & _ & Bd); [lra|lra|lra|]. assert (d' = d) by congruence. subst d'.
  assert (P19 : 2 ^ 19 = 524288) by (rewrite pow_IZR; reflexivity). rewrite P19 in Bd.
  cbv zeta in Q. set (s := (/ value d - 1) / (value t2 - value t1)) in *. assert (S : Rabs (value d * s) <= 524288 * 512).
  { replace (value d * s) with ((1 - value d) * / (value t2 - value t1)) by (unfold s; field; lra). rewrite Rabs_mult. apply Rmult_le_compat; try apply Rabs_pos; [apply Rabs_le; lra|].
    rewrite Rabs_pos_eq; [|left; apply Rinv_0_lt_compat; lra]. replace 512 with (/ / 512) by field. apply Rinv_le; lra. }
  assert (P24 : 2 ^ 24 = 16777216) by (rewrite pow_IZR; reflexivity). assert (P29 : 2 ^ 29 = 536870912) by (rewrite pow_IZR; reflexivity). rewrite P24 in Q. rewrite P29.
  assert (Z9 : / 2 ^ 149 <= 1). { rewrite <- Rinv_1. apply Rinv_le; [lra|]. apply pow_R1_Rle. lra. }
  set (z9 := / 2 ^ 149) in *. fold (value y). replace (value y) with ((value y - value d * s) + value d * s) by ring. apply Rle_trans with (1 := Rabs_triang _ _). set (p := Rabs (value d * s)) in *. set (q := Rabs (value y - value d * s)) in *. clearbody z9 p q. clear - S Q Z9. lra.
Qed.
Definition tenor_1d : list ascii := ["1"; "D"]%char.
Definition tenor_2y : list ascii := ["2"; "Y"]%char.
Definition lit_512th : f32 := @B754_finite 24 128 false 8388608 (-32) eq_refl.
Lemma lit_512th_ok : finite lit_512th /\ value lit_512th = / 512.
Proof. split; [reflexivity|]. unfold value, lit_512th. cbn -[IZR]. unfold F2R. cbn -[IZR]. lra. Qed.
Lemma usual_29 : forall y, finite y -> Rabs (value y) <= 2 ^ 29 -> usual y.
Proof. intros y F B. split; [exact F|]. rewrite p30. rewrite (pow_IZR 2 29) in B. change (IZR (2 ^ Z.of_nat 29)) with 536870912 in B. lra. Qed.
Lemma usual_small : forall z, (0 <= z <= 100)%Z -> usual (gof_Z z).
Proof. intros z H. destruct (small_fin z ltac:(lia)) as [F R]. split; [exact F|]. unfold value. fold (real_of (gof_Z z)). rewrite R, Rabs_pos_eq, p30; [|apply IZR_le; lia]. apply Rle_trans with 100; [apply IZR_le; lia|lra]. Qed.
(** 15 June to 15 September 2024, fixed two years ahead; priced in March *)
Definition ex_ahead : coupon := Coupon (day_of 2024 6 14) (day_of 2024 6 15) (day_of 2024 9 15) (day_of 2024 9 16).
Definition ex_kr : any_calendar := One (new_south_korea KrKrx).
Definition unit_fraction (r : outcome (rresult f32)) : bool := match r with Ret (ROk f) => is_finite f && gle (gof_Z 0) f && gle f (gof_Z 1) | _ => false end.
Lemma unit_usual : forall r, unit_fraction r = true -> exists f, r = Ret (ROk f) /\ usual f /\ 0 <= value f <= 1.
Proof.
  intros [[f|]| |] H; try discriminate H. cbn in H. apply andb_true_iff in H. destruct H as [H H2]. apply andb_true_iff in H. destruct H as [F H1]. exists f. split; [reflexivity|].
  apply (proj1 (fin_le 24 128 _ _ _ _ zero_fn (conj F eq_refl))) in H1. apply (proj1 (fin_le 24 128 _ _ _ _ (conj F eq_refl) one_fn)) in H2.
  split; [split; [exact F|]; unfold value; rewrite Rabs_pos_eq, p30; lra|unfold value; lra].
Qed.
Definition is_day (r : outcome odt) (d : odt) : bool := match r with Ret x => (od_day x =? od_day d)%Z && (od_ns x =? od_ns d)%Z && (od_off x =? od_off d)%Z | _ => false end.
Lemma is_day_eq : forall r d, is_day r d = true -> r = Ret d.
Proof.
  intros [x| |] d H; try discriminate H. cbn in H. apply andb_true_iff in H. destruct H as [H H3]. apply andb_true_iff in H. destruct H as [H1 H2]. apply Z.eqb_eq in H1, H2, H3. destruct x, d. cbn in *. congruence.
Qed.
Example c145_hypotheses_met : exists c e r f, (instant ex_eval <= instant (fixing_date ex_ahead))%Z /\ spread_of None (gof_Z 0) /\ add_period (fixing_date ex_ahead) tenor_2y = Ret e /\
  forward_dates (fun x => x) ex_eval c (fixing_date ex_ahead) e CSimple = Ret (ROk r) /\ year_fraction ex_kr (calc_start_date ex_ahead) (calc_end_date ex_ahead) Actual365Fixed = Ret (ROk f) /\ usual r /\ usual (gof_Z 0) /\ usual f /\
  (instant (fixing_date ex_ahead) < instant (day_of 2024 7 1))%Z.
Proof.
  destruct ex_curve as (c & t9 & H & RR & H9 & B). exists c, (day_of 2026 6 14).
  destruct (small_fin 1 ltac:(lia)) as [F1 R1]. destruct (small_fin 2 ltac:(lia)) as [F2 R2]. unfold real_of in R1, R2.
  destruct (bracket_forward c t9 (fixing_date ex_ahead) (day_of 2026 6 14) (gof_Z 1) (gof_Z 2) H RR H9 B F1 F2) as (r & Er & Fr & Br); [unfold value; rewrite R1, R2; lra|vm_compute; reflexivity|].
  destruct (unit_usual (year_fraction ex_kr (calc_start_date ex_ahead) (calc_end_date ex_ahead) Actual365Fixed) ltac:(vm_compute; reflexivity)) as (f & Ef & Uf & _).
  exists r, f. split; [vm_compute; discriminate|]. split; [right; split; reflexivity|]. split; [apply is_day_eq; vm_compute; reflexivity|]. split; [exact Er|]. split; [exact Ef|]. split; [apply usual_29; assumption|].
  split; [apply usual_small; lia|]. split; [exact Uf|vm_compute; reflexivity].
Qed.
(** 13 to 15 March 2024 by days, the two rates recorded *)
Definition ex_run : coupon := Coupon (day_of 2024 3 13) (day_of 2024 3 13) (day_of 2024 3 15) (day_of 2024 3 15).
Definition ex_fixings : closes := record_close (record_close no_closes (od_day (day_of 2024 3 13)) sixteenth) (od_day (day_of 2024 3 14)) eighth.
Lemma ex_rate : forall f_ln c spot d r, (in_range (od_day d) && (instant d <? instant ex_eval)%Z) = true -> match adjust ex_kr d Preceding with Ret (ROk x) => (od_day x =? od_day d)%Z && (instant x =? instant d)%Z | _ => false end = true ->
  close_on ex_fixings (od_day d) = Some r -> overnight_rate f_ln tenor_1d ex_eval c ex_fixings ex_eval ex_kr 0 spot d r.
Proof.
  intros f_ln c spot d r A J C. apply andb_true_iff in A. destruct A as [A A2]. destruct (adjust ex_kr d Preceding) as [[x|]| |] eqn:E; try discriminate J. apply andb_true_iff in J. destruct J as [J1 J2]. apply Z.eqb_eq in J1, J2. apply Z.ltb_lt in A2.
  exists d, x. split; [|split; [exact E|]].
  - unfold add_days, date_add. rewrite Z.add_0_r, A. cbn [obind]. destruct d. reflexivity.
  - left. rewrite J1, J2. auto.
Qed.
Example c146_hypotheses_met : exists c spot l, (instant (fixing_date ex_run) < instant ex_eval)%Z /\ add_period ex_eval tenor_1d = Ret (day_of 2024 3 16) /\
  forward_dates (fun x => x) ex_eval c ex_eval (day_of 2024 3 16) CSimple = Ret (ROk spot) /\
  subperiods (overnight_rate (fun x => x) tenor_1d ex_eval c ex_fixings ex_eval ex_kr 0 spot) tenor_1d ex_kr Actual365Fixed (calc_end_date ex_run) (calc_start_date ex_run) l /\
  usual (gof_Z 0) /\ Forall (mild_period (gof_Z 0)) l /\ length l = 2%nat /\ (forall l1 l2, l = l1 ++ l2 -> / 2 ^ 100 <= growth (value (gof_Z 0)) l1 <= 2 ^ 100).
Proof.
  destruct ex_curve as (c & t9 & H & RR & H9 & B). destruct lit_512th_ok as [FL VL]. destruct (small_fin 0 ltac:(lia)) as [F0 R0]. unfold real_of in R0. fold (value (gof_Z 0)) in R0.
  destruct (bracket_forward c t9 ex_eval (day_of 2024 3 16) (gof_Z 0) lit_512th H RR H9 B F0 FL) as (r & Er & Fr & Br); [rewrite R0, VL; lra|vm_compute; reflexivity|].
  destruct (unit_usual (year_fraction ex_kr (day_of 2024 3 13) (day_of 2024 3 14) Actual365Fixed) ltac:(vm_compute; reflexivity)) as (f1 & E1 & U1 & B1).
  destruct (unit_usual (year_fraction ex_kr (day_of 2024 3 14) (day_of 2024 3 15) Actual365Fixed) ltac:(vm_compute; reflexivity)) as (f2 & E2 & U2 & B2).
  destruct eighth_value as (F8 & V8 & F16 & V16).
  assert (K1 : 0 <= / 16 * value f1 <= / 16) by lra. assert (K2 : 0 <= / 8 * value f2 <= / 8) by lra.
  exists c, r, [(sixteenth, f1); (eighth, f2)]. split; [vm_compute; reflexivity|]. split; [apply is_day_eq; vm_compute; reflexivity|]. split; [exact Er|]. split; [|split; [apply usual_small; lia|split; [|split; [reflexivity|]]]].
  - apply (sp_next _ _ _ _ _ (day_of 2024 3 13) (day_of 2024 3 14) (day_of 2024 3 14)); [vm_compute; reflexivity|apply is_day_eq; vm_compute; reflexivity|left; split; [reflexivity|vm_compute; reflexivity]|exact E1|apply ex_rate; vm_compute; reflexivity|].
    apply (sp_next _ _ _ _ _ (day_of 2024 3 14) (day_of 2024 3 15) (day_of 2024 3 15)); [vm_compute; reflexivity|apply is_day_eq; vm_compute; reflexivity|right; split; [reflexivity|vm_compute; discriminate]|exact E2|apply ex_rate; vm_compute; reflexivity|].
    apply sp_end. vm_compute. discriminate.
  - assert (Q : usual sixteenth /\ usual eighth) by (split; split; try assumption; rewrite ?V8, ?V16, p30, Rabs_pos_eq; lra).
    repeat (apply Forall_cons; [split; [|split]; cbn [fst snd]; try tauto; rewrite R0, ?V8, ?V16, Rabs_pos_eq; lra|]). apply Forall_nil.
  - intros l1 l2 E. assert (P100 : 2 ^ 100 = 1267650600228229401496703205376) by (rewrite pow_IZR; reflexivity). rewrite P100, R0.
    destruct l1 as [|p1 [|p2 [|p3 l1]]]; cbn [app] in E; [cbn; lra| | |discriminate E].
    + injection E as <- _. cbn [growth fold_right fst snd]. rewrite V16. lra.
    + injection E as <- <- _. cbn [growth fold_right fst snd]. rewrite V16, V8. assert (X : 1 * 1 <= (1 + (/ 16 + 0) * value f1) * ((1 + (/ 8 + 0) * value f2) * 1) <= 2 * 2) by (split; apply Rmult_le_compat; lra). lra.
Qed.
(** "0D" leaves a date where it is *)
Example c146_zero_hypotheses_met : add_period (day_of 2024 3 13) ["0"; "D"]%char = Ret (day_of 2024 3 13) /\ exists f, year_fraction ex_kr (day_of 2024 3 13) (day_of 2024 3 13) Actual365Fixed = Ret (ROk f).
Proof.
  split; [apply is_day_eq; vm_compute; reflexivity|]. destruct (unit_usual (year_fraction ex_kr (day_of 2024 3 13) (day_of 2024 3 13) Actual365Fixed) ltac:(vm_compute; reflexivity)) as (f & E & _). exists f. exact E.
Qed.
Print Assumptions c145_future.
Print Assumptions c145_recorded.
Print Assumptions c145_missing_refuted.
Print Assumptions c146_future.
Print Assumptions c146_product.
Print Assumptions c146_zero_refuted.
