(** QFutProps.v -- C162 to C165: forwards, futures, FX futures, cash and stock. *)
From Coq Require Import ZArith List Reals Lra Lia Bool.
From Flocq Require Import Core IEEE754.BinarySingleNaN.
From Verif Require Import Base CivilSpec FloatModel FloatFacts KrxModel QDateModel QCalModel QCalSpec QYearModel QYearSpec QFindModel QInterpModel QInterpSpec QDivModel QDivSpec QDivProps
  QCurveModel QCurveSpec QCurveFacts QCurveExp QFloatErr QLinProps QCurveProps QCurveFwdProps QBondModel QBondSpec QBondProofs QBondPriceProps QCouponProps QMoneyModel QMoneyProps QSwapModel QSwapSpec QSwapProps QFutModel.
Import ListNotations.
Open Scope R_scope.

(** ** C162: the fair forward *)
Lemma p10 : 2 ^ 10 = 1024. Proof. rewrite pow_IZR. reflexivity. Qed.
Lemma p24' : 2 ^ 24 = 16777216. Proof. rewrite pow_IZR. reflexivity. Qed.
Lemma abs_one : forall d, Rabs d <= e24 -> Rabs (1 + d) <= 1.001 /\ 0.999 <= 1 + d <= 1.001.
Proof. intros d D. apply Rabs_le_inv in D. unfold e24 in D. split; [apply Rabs_le|]; lra. Qed.
(** three roundings *)
Lemma three : forall x y z, Rabs x <= e24 -> Rabs y <= e24 -> Rabs z <= e24 -> exists w, Rabs w <= 4 * e24 /\ (1 + x) * (1 + y) * (1 + z) = 1 + w.
Proof.
  intros x y z X Y Z. destruct (err_mul 1 1 x y ltac:(lra) ltac:(lra) ltac:(lra) ltac:(lra)) as (w & W & E). rewrite E.
  destruct (err_mul 2.001 1 w z ltac:(lra) ltac:(lra)) as (v & V & E'); [lra|lra|]. exists v. split; [|exact E']. unfold e24 in *. lra.
Qed.
Lemma tiny118 : forall k, 0 <= k <= 4294967296 -> tiny * k <= / 2 ^ 118.
Proof.
  intros k K. apply Rle_trans with (tiny * 4294967296); [apply Rmult_le_compat_l; [apply tiny_1|lra]|].
  replace 4294967296 with (bpow radix2 32) by (cbn; lra). unfold tiny. rewrite <- bpow_plus. change (-150 + 32)%Z with (Z.opp 118). rewrite bpow_opp. rewrite <- (IZR_Zpower radix2 118) by lia. rewrite pow_IZR. apply Rle_refl.
Qed.
(** spot * borrow / collateral * ratio, within four roundings *)
Lemma product_close : forall (s b c q : f32), usual s -> finite b -> / 2 ^ 20 <= value b <= 2 ^ 20 -> finite c -> / 2 ^ 20 <= value c <= 2 ^ 20 -> finite q -> Rabs (value q) <= 2 ^ 10 ->
  exists x, fn (gmul (gdiv (gmul s b) c) q) x /\ Rabs (x - value s * value b / value c * value q) <= Rabs (value s * value b / value c * value q) * (4 / 2 ^ 24) + / 2 ^ 118.
Proof.
  intros s b c q [Fs Bs] Fb Bb Fc Bc Fq Bq. rewrite p20 in Bb, Bc. rewrite p30 in Bs. rewrite p10 in Bq. rewrite p24'. pose proof tiny_1 as T1.
  set (S := value s) in *. set (B := value b) in *. set (C := value c) in *. set (Q := value q) in *.
  assert (SB : Rabs (S * B) <= 1073741824 * 1048576) by (rewrite Rabs_mult, (Rabs_pos_eq B) by lra; apply Rmult_le_compat; try apply Rabs_pos; lra).
  destruct (mul_err s b S B (conj Fs eq_refl) (conj Fb eq_refl)) as (p & d1 & t1 & Fp & D1 & U1 & E1); [apply two100_127; unfold two100; lra|].
  assert (IC : 0 < / C <= 1048576). { split; [apply Rinv_0_lt_compat; lra|]. rewrite <- (Rinv_inv 1048576). apply Rinv_le; lra. }
  destruct (abs_one d1 D1) as [A1 _].
  assert (BP : Rabs p <= 1073741824 * 1048576 * 1.001 + 1).
  { rewrite E1. apply Rle_trans with (1 := Rabs_triang _ _). apply Rplus_le_compat; [|lra]. rewrite (Rabs_mult (S * B)). apply Rmult_le_compat; try apply Rabs_pos; assumption. }
  assert (BPC : Rabs (p / C) <= (1073741824 * 1048576 * 1.001 + 1) * 1048576) by (unfold Rdiv; rewrite Rabs_mult, (Rabs_pos_eq (/ C)) by lra; apply Rmult_le_compat; try apply Rabs_pos; lra).
  destruct (div_err (gmul s b) c p C Fp (conj Fc eq_refl)) as (h & d2 & t2 & Fh & D2 & U2 & E2); [lra|apply two100_127; unfold two100; lra|].
  destruct (abs_one d2 D2) as [A2 _].
  assert (BH : Rabs h <= (1073741824 * 1048576 * 1.001 + 1) * 1048576 * 1.001 + 1).
  { rewrite E2. apply Rle_trans with (1 := Rabs_triang _ _). apply Rplus_le_compat; [|lra]. rewrite (Rabs_mult (p / C)). apply Rmult_le_compat; try apply Rabs_pos; assumption. }
  destruct (mul_err (gdiv (gmul s b) c) q h Q Fh (conj Fq eq_refl)) as (x & d3 & t3 & Fx & D3 & U3 & E3).
  { apply two100_127. rewrite Rabs_mult. apply Rle_trans with (((1073741824 * 1048576 * 1.001 + 1) * 1048576 * 1.001 + 1) * 1024); [apply Rmult_le_compat; try apply Rabs_pos; assumption|unfold two100; lra]. }
  destruct (abs_one d3 D3) as [A3 _].
  exists x. split; [exact Fx|]. destruct (three d1 d2 d3 D1 D2 D3) as (w & W & EW).
  replace (x - S * B / C * Q) with (S * B / C * Q * w + (t1 * (/ C) * Q * (1 + d2) * (1 + d3) + t2 * Q * (1 + d3) + t3)).
  2:{ rewrite E3, E2, E1. replace w with ((1 + d1) * (1 + d2) * (1 + d3) - 1) by (rewrite EW; ring). field. lra. }
  apply Rle_trans with (1 := Rabs_triang _ _). apply Rplus_le_compat.
  - rewrite (Rabs_mult (S * B / C * Q) w). apply Rmult_le_compat_l; [apply Rabs_pos|]. unfold e24 in W. lra.
  - assert (X1 : Rabs (t1 * / C * Q * (1 + d2) * (1 + d3)) <= tiny * 1048576 * 1024 * 1.001 * 1.001).
    { rewrite !Rabs_mult. rewrite (Rabs_pos_eq (/ C)) by lra. repeat (apply Rmult_le_compat; try assumption; try apply Rabs_pos; try (apply Rmult_le_pos; try apply Rabs_pos); try lra; repeat apply Rmult_le_pos; try apply Rabs_pos; try lra). }
    assert (X2 : Rabs (t2 * Q * (1 + d3)) <= tiny * 1024 * 1.001).
    { rewrite !Rabs_mult. repeat (apply Rmult_le_compat; try assumption; try apply Rabs_pos; try (apply Rmult_le_pos; apply Rabs_pos)). }
    apply Rle_trans with (1 := Rabs_triang _ _). apply Rle_trans with (Rabs (t1 * / C * Q * (1 + d2) * (1 + d3)) + Rabs (t2 * Q * (1 + d3)) + tiny); [apply Rplus_le_compat; [apply Rabs_triang|exact U3]|].
    apply Rle_trans with (tiny * 4294967296); [lra|]. apply tiny118. lra.
Qed.
(** the forward is spot * borrow factor / collateral factor * dividend ratio *)
Theorem c162_value : forall eval coll borrow spot div d q, usual spot -> priced eval coll d -> priced eval borrow d -> price_deduction_ratio div d = Ret (ROk q) -> finite q -> Rabs (value q) <= 2 ^ 10 ->
  let exact := value spot * factor_on eval borrow d / factor_on eval coll d * value q in
  exists F, fair_forward eval coll borrow spot div d = Ret (ROk F) /\ finite F /\ Rabs (value F - exact) <= Rabs exact * (4 / 2 ^ 24) + / 2 ^ 118.
Proof.
  intros eval coll borrow spot div d q US (C & EC & FC & BC) (B & EB & FB & BB) EQ Fq Bq exact. unfold fair_forward. rewrite EC, EB, EQ. cbn [rbind].
  destruct (product_close spot B C q US FB BB FC BC Fq Bq) as (x & [Fx Vx] & X). eexists. split; [reflexivity|]. split; [exact Fx|].
  unfold exact, factor_on. rewrite EC, EB. unfold value at 1. rewrite Vx. exact X.
Qed.
(** with dividends: the ratio is the product of 1 - yield over the dividends
    from the evaluation date up to the day asked for *)
Theorem c162_dividends : forall eval coll borrow spot d ds amounts ts mk base, usual spot -> priced eval coll d -> priced eval borrow d ->
  by_day ds -> in_time ds -> length amounts = length ds -> Exists (fun e => (instant eval <= instant e)%Z) ds ->
  let q := deduct (map snd (coming eval d (combine ds (map (fun a => gdiv a base) amounts)))) in finite q -> Rabs (value q) <= 2 ^ 10 ->
  let exact := value spot * factor_on eval borrow d / factor_on eval coll d * value q in
  exists v F, dividend_new eval (VectorData amounts (Some ds) ts mk) base = Ret (ROk v) /\ fair_forward eval coll borrow spot (Some v) d = Ret (ROk F) /\ finite F /\
    Rabs (value F - exact) <= Rabs exact * (4 / 2 ^ 24) + / 2 ^ 118.
Proof.
  intros eval coll borrow spot d ds amounts ts mk base US PC PB BD IT L EX q Fq Bq exact. destruct (c124_ratio eval ds amounts ts mk base BD IT L EX) as (v & EV & ER & R & RP).
  destruct (c162_value eval coll borrow spot (Some v) d q US PC PB) as (F & EF & FF & X); [rewrite RP, R, ER; reflexivity|exact Fq|exact Bq|].
  exists v, F. auto.
Qed.
(** there is a forward exactly where both curves have a factor and the dividend
    has a ratio *)
Theorem c162_errors : forall eval coll borrow spot div d,
  (exists F, fair_forward eval coll borrow spot div d = Ret (ROk F)) <->
  (exists C B q, discount_at eval coll d = Ret (ROk C) /\ discount_at eval borrow d = Ret (ROk B) /\ price_deduction_ratio div d = Ret (ROk q)).
Proof.
  intros. unfold fair_forward. split.
  - intros [F E]. destruct (discount_at eval coll d) as [[C|]| |]; try discriminate E. cbn [rbind] in E. destruct (discount_at eval borrow d) as [[B|]| |]; try discriminate E. cbn [rbind] in E.
    destruct (price_deduction_ratio div d) as [[q|]| |]; try discriminate E. exists C, B, q. auto.
  - intros (C & B & q & -> & -> & ->). cbn [rbind]. eexists. reflexivity.
Qed.
(** an earlier day of the year is an error *)
Theorem c162_past : forall eval coll borrow spot div d y, odt_ok eval -> odt_ok d -> in_the_year y (od_day eval) -> in_the_year y (od_day d) -> od_off eval = od_off d -> (instant d + day_ns <= instant eval)%Z ->
  fair_forward eval coll borrow spot div d = Ret RErr.
Proof. intros. unfold fair_forward. rewrite (c137_past eval coll d y) by assumption. reflexivity. Qed.
Lemma div_one : forall x y : f32, finite x -> finite y -> value y = 1 -> finite (gdiv x y) /\ value (gdiv x y) = value x.
Proof.
  intros x y Fx Fy V. pose proof (Bdiv_correct 24 128 _ _ mode_NE x y) as H. cbv zeta in H. unfold value in V. rewrite V in H. specialize (H ltac:(lra)). unfold Rdiv in H. rewrite Rinv_1, Rmult_1_r in H.
  change (round radix2 (SpecFloat.fexp 24 128) (round_mode mode_NE) (B2R x)) with (rnd 24 128 (B2R x)) in H. rewrite rnd_B2R in H. rewrite Rlt_bool_true in H by apply abs_B2R_lt_emax.
  destruct H as (H1 & H2 & _). split; [unfold finite, gdiv; rewrite H2; exact Fx|exact H1].
Qed.
Lemma mul_one : forall x y : f32, finite x -> finite y -> value y = 1 -> finite (gmul x y) /\ value (gmul x y) = value x.
Proof.
  intros x y Fx Fy V. pose proof (Bmult_correct 24 128 _ _ mode_NE x y) as H. cbv zeta in H. unfold value in V. rewrite V, Rmult_1_r in H.
  change (round radix2 (SpecFloat.fexp 24 128) (round_mode mode_NE) (B2R x)) with (rnd 24 128 (B2R x)) in H. rewrite rnd_B2R in H. rewrite Rlt_bool_true in H by apply abs_B2R_lt_emax.
  destruct H as (H1 & H2 & _). split; [unfold finite, gmul; rewrite H2, Fx, Fy; reflexivity|exact H1].
Qed.
(** today's forward is the spot price, exactly, unless a dividend falls today *)
Theorem c162_today : forall f_exp eval coll borrow spot div q, good_exp f_exp -> reached f_exp coll -> reached f_exp borrow -> finite spot -> price_deduction_ratio div eval = Ret (ROk q) -> finite q -> value q = 1 ->
  exists F, fair_forward eval coll borrow spot div eval = Ret (ROk F) /\ finite F /\ value F = value spot.
Proof.
  intros f_exp eval coll borrow spot div q GE HC HB FS EQ Fq Vq. unfold fair_forward. destruct (c134_today f_exp eval coll GE HC) as (C & EC & FC & VC). destruct (c134_today f_exp eval borrow GE HB) as (B & EB & FB & VB).
  rewrite EC, EB, EQ. cbn [rbind]. eexists. split; [reflexivity|]. destruct (mul_one spot B FS FB VB) as [F1 V1]. destruct (div_one _ C F1 FC VC) as [F2 V2]. destruct (mul_one _ q F2 Fq Vq) as [F3 V3].
  split; [exact F3|]. congruence.
Qed.
(** REFUTED: a date in an earlier year is no error either: its forward is
    today's spot price *)
Theorem c162_past_year_refuted : forall f_exp eval coll borrow spot d y1 y2, good_exp f_exp -> reached f_exp coll -> reached f_exp borrow -> finite spot ->
  in_the_year y1 (od_day eval) -> in_the_year y2 (od_day d) -> (y2 < y1)%Z -> exists F, fair_forward eval coll borrow spot None d = Ret (ROk F) /\ finite F /\ value F = value spot.
Proof.
  intros f_exp eval coll borrow spot d y1 y2 GE HC HB FS Y1 Y2 L. unfold fair_forward.
  destruct (c137_past_year_refuted f_exp eval coll d y1 y2 GE HC Y1 Y2 L) as (C & EC & FC & VC). destruct (c137_past_year_refuted f_exp eval borrow d y1 y2 GE HB Y1 Y2 L) as (B & EB & FB & VB).
  rewrite EC, EB, c124_none. cbn [rbind]. eexists. split; [reflexivity|]. destruct (mul_one spot B FS FB VB) as [F1 V1]. destruct (div_one _ C F1 FC VC) as [F2 V2].
  destruct one_fn as [Fq Vq]. destruct (mul_one _ (gof_Z 1) F2 Fq Vq) as [F3 V3]. split; [exact F3|]. congruence.
Qed.

(** ** C163: futures *)
(** worth the forward at maturity; the detailed result says the same and lists
    no payments *)
Theorem c163_npv : forall eval coll borrow spot div f, 
  futures_npv eval coll borrow spot div f = fair_forward eval coll borrow spot div (fu_maturity f) /\
  (forall x, futures_npv eval coll borrow spot div f = Ret (ROk x) -> exists r, futures_result eval coll borrow spot div f = Ret (ROk r) /\ nr_npv r = x /\ nr_amounts r = [] /\ nr_probs r = []) /\
  (futures_npv eval coll borrow spot div f = Ret RErr -> futures_result eval coll borrow spot div f = Ret RErr).
Proof.
  intros. split; [reflexivity|]. unfold futures_npv, futures_result. split.
  - intros x ->. cbn [rbind]. eexists. split; [reflexivity|]. auto.
  - intros ->. reflexivity.
Qed.
(** the exposure: (forward - trade price) * notional in the futures' currency,
    and nothing else *)
Theorem c163_exposure : forall eval coll borrow spot div f F, fair_forward eval coll borrow spot div (fu_maturity f) = Ret (ROk F) -> usual F -> usual (fu_average f) -> usual (fu_notional f) ->
  let exact := (value F - value (fu_average f)) * value (fu_notional f) in
  exists x, futures_exposure eval coll borrow spot div f = Ret (ROk [(fu_ccy f, x)]) /\ finite x /\ Rabs (value x - exact) <= Rabs exact * (3 / 2 ^ 24) + / 2 ^ 118.
Proof.
  intros eval coll borrow spot div f F EF [FF BF] [FA BA] [FN BN] exact. unfold futures_exposure, futures_npv. rewrite EF. cbn [obind].
  rewrite p30 in BF, BA, BN. rewrite p24'. unfold exact. clear exact. set (A := value (fu_average f)) in *. set (N := value (fu_notional f)) in *. set (G := value F) in *. pose proof tiny_1 as T1.
  assert (GA : Rabs (G - A) <= 2147483648) by (replace (G - A) with (G + - A) by ring; apply Rle_trans with (1 := Rabs_triang _ _); rewrite Rabs_Ropp; lra).
  destruct (sub_err F (fu_average f) G A (conj FF eq_refl) (conj FA eq_refl)) as (v & d1 & Fv & D1 & E1); [apply two100_127; unfold two100; lra|]. destruct (abs_one d1 D1) as [A1 _].
  assert (BV : Rabs v <= 2147483648 * 1.001) by (rewrite E1, Rabs_mult; apply Rmult_le_compat; try apply Rabs_pos; assumption).
  destruct (mul_err _ (fu_notional f) v N Fv (conj FN eq_refl)) as (x & d2 & t & [Fx Vx] & D2 & T & E2).
  { apply two100_127. rewrite Rabs_mult. apply Rle_trans with (2147483648 * 1.001 * 1073741824); [apply Rmult_le_compat; try apply Rabs_pos; assumption|unfold two100; lra]. }
  eexists. split; [reflexivity|]. split; [exact Fx|]. unfold value at 1. rewrite Vx, E2, E1.
  destruct (err_mul 1 1 d1 d2 ltac:(lra) ltac:(lra) ltac:(lra) ltac:(lra)) as (w & W & EW).
  replace ((G - A) * (1 + d1) * N * (1 + d2) + t - (G - A) * N) with ((G - A) * N * w + t) by (replace w with ((1 + d1) * (1 + d2) - 1) by (rewrite EW; ring); ring).
  apply Rle_trans with (1 := Rabs_triang _ _). apply Rplus_le_compat.
  - rewrite (Rabs_mult ((G - A) * N)). apply Rmult_le_compat_l; [apply Rabs_pos|]. unfold e24 in W. lra.
  - apply Rle_trans with (1 := T). rewrite <- (Rmult_1_r tiny) at 1. apply tiny118. lra.
Qed.
(** REFUTED: where there is no forward, asking for the exposure panics instead
    of returning an error *)
Theorem c163_panics_refuted : forall eval coll borrow spot div f, fair_forward eval coll borrow spot div (fu_maturity f) = Ret RErr ->
  futures_npv eval coll borrow spot div f = Ret RErr /\ futures_exposure eval coll borrow spot div f = Panic.
Proof. intros eval coll borrow spot div f E. unfold futures_exposure, futures_npv. rewrite E. auto. Qed.

(** ** C164: FX futures *)
(** the rate of exchange, carried forward with the two currencies' factors *)
Theorem c164_npv : forall eval und fut fx f, usual fx -> priced eval und (ff_maturity f) -> priced eval fut (ff_maturity f) ->
  let exact := value fx * factor_on eval und (ff_maturity f) / factor_on eval fut (ff_maturity f) in
  exists x r, fx_futures_npv eval und fut fx f = Ret (ROk x) /\ finite x /\ Rabs (value x - exact) <= Rabs exact * (3 / 2 ^ 24) + / 2 ^ 118 /\
    fx_futures_result eval und fut fx f = Ret (ROk r) /\ nr_npv r = x /\ nr_amounts r = [] /\ nr_probs r = [].
Proof.
  intros eval und fut fx f [FX BX] (U & EU & FU & BU) (D & ED & FD & BD) exact. unfold fx_futures_result, fx_futures_npv. rewrite EU, ED. cbn [rbind]. unfold exact, factor_on. rewrite EU, ED. clear exact.
  rewrite p20 in BU, BD. rewrite p30 in BX. rewrite p24'. pose proof tiny_1 as T1. set (X := value fx) in *. set (B := value U) in *. set (C := value D) in *.
  assert (SB : Rabs (X * B) <= 1073741824 * 1048576) by (rewrite Rabs_mult, (Rabs_pos_eq B) by lra; apply Rmult_le_compat; try apply Rabs_pos; lra).
  destruct (mul_err fx U X B (conj FX eq_refl) (conj FU eq_refl)) as (p & d1 & t1 & Fp & D1 & U1 & E1); [apply two100_127; unfold two100; lra|].
  assert (IC : 0 < / C <= 1048576). { split; [apply Rinv_0_lt_compat; lra|]. rewrite <- (Rinv_inv 1048576). apply Rinv_le; lra. }
  destruct (abs_one d1 D1) as [A1 _].
  assert (BP : Rabs p <= 1073741824 * 1048576 * 1.001 + 1).
  { rewrite E1. apply Rle_trans with (1 := Rabs_triang _ _). apply Rplus_le_compat; [|lra]. rewrite (Rabs_mult (X * B)). apply Rmult_le_compat; try apply Rabs_pos; assumption. }
  assert (BPC : Rabs (p / C) <= (1073741824 * 1048576 * 1.001 + 1) * 1048576) by (unfold Rdiv; rewrite Rabs_mult, (Rabs_pos_eq (/ C)) by lra; apply Rmult_le_compat; try apply Rabs_pos; lra).
  destruct (div_err (gmul fx U) D p C Fp (conj FD eq_refl)) as (h & d2 & t2 & [Fh Vh] & D2 & U2 & E2); [lra|apply two100_127; unfold two100; lra|].
  destruct (abs_one d2 D2) as [A2 _].
  eexists _, _. split; [reflexivity|]. split; [exact Fh|]. split; [|split; [reflexivity|]; split; [reflexivity|]; split; reflexivity].
  unfold value at 1. rewrite Vh. destruct (err_mul 1 1 d1 d2 ltac:(lra) ltac:(lra) ltac:(lra) ltac:(lra)) as (w & W & EW).
  replace (h - X * B / C) with (X * B / C * w + (t1 * / C * (1 + d2) + t2)).
  2:{ rewrite E2, E1. replace w with ((1 + d1) * (1 + d2) - 1) by (rewrite EW; ring). field. lra. }
  apply Rle_trans with (1 := Rabs_triang _ _). apply Rplus_le_compat.
  - rewrite (Rabs_mult (X * B / C)). apply Rmult_le_compat_l; [apply Rabs_pos|]. unfold e24 in W. lra.
  - apply Rle_trans with (1 := Rabs_triang _ _). assert (X1 : Rabs (t1 * / C * (1 + d2)) <= tiny * 1048576 * 1.001).
    { rewrite !Rabs_mult. rewrite (Rabs_pos_eq (/ C)) by lra. repeat (apply Rmult_le_compat; try assumption; try apply Rabs_pos; try lra; try (apply Rmult_le_pos; try apply Rabs_pos; lra)). }
    apply Rle_trans with (tiny * 4294967296); [lra|]. apply tiny118. lra.
Qed.
(** between different currencies: what is received is one unit of the
    underlying currency at maturity, what is paid is the trade price *)
Theorem c164_exposure : forall eval und fut f, ff_ccy f <> ff_und_ccy f -> priced eval und (ff_maturity f) -> priced eval fut (ff_maturity f) -> usual (ff_average f) ->
  exists m x y, fx_futures_exposure eval und fut f = Ret (ROk m) /\ length m = 2%nat /\ exposure_in m (ff_und_ccy f) = Some x /\ exposure_in m (ff_ccy f) = Some y /\ finite x /\ finite y /\
    value x = factor_on eval und (ff_maturity f) /\
    Rabs (value y + factor_on eval fut (ff_maturity f) * value (ff_average f)) <= Rabs (factor_on eval fut (ff_maturity f) * value (ff_average f)) * (1 / 2 ^ 24) + / 2 ^ 118.
Proof.
  intros eval und fut f NE (U & EU & FU & BU) (D & ED & FD & BD) [FA BA]. unfold fx_futures_exposure. rewrite EU, ED. cbn [rbind ccy_put]. unfold factor_on. rewrite EU, ED.
  rewrite p20 in BU, BD. rewrite p30 in BA. rewrite p24'.
  assert (N1 : ccy_eqb (ff_ccy f) (ff_und_ccy f) = false) by (apply not_true_iff_false; intro Q; apply c153_equal in Q; contradiction).
  assert (N2 : ccy_eqb (ff_und_ccy f) (ff_ccy f) = false) by (apply not_true_iff_false; intro Q; apply c153_equal in Q; symmetry in Q; contradiction).
  assert (R1 : forall c, ccy_eqb c c = true) by (intro c; apply c153_equal; reflexivity).
  rewrite N1. set (A := value (ff_average f)) in *. set (C := value D) in *. pose proof (fin_neg 24 128 D C (conj FD eq_refl)) as FNg.
  assert (CA : Rabs (- C * A) <= 1048576 * 1073741824) by (rewrite Rabs_mult, Rabs_Ropp, (Rabs_pos_eq C) by lra; apply Rmult_le_compat; try apply Rabs_pos; lra).
  destruct (mul_err (gneg D) (ff_average f) (- C) A FNg (conj FA eq_refl)) as (y & d & t & [Fy Vy] & D1 & T & E); [apply two100_127; unfold two100; lra|].
  eexists _, U, _. split; [reflexivity|]. split; [reflexivity|]. unfold exposure_in. cbn [List.filter fst snd]. rewrite N1, N2, !R1. cbn [snd].
  split; [reflexivity|]. split; [reflexivity|]. split; [exact FU|]. split; [exact Fy|]. split; [reflexivity|].
  unfold value at 1. rewrite Vy, E. replace (- C * A * (1 + d) + t + C * A) with (- (C * A * d) + t) by ring. apply Rle_trans with (1 := Rabs_triang _ _). rewrite Rabs_Ropp. apply Rplus_le_compat.
  - rewrite (Rabs_mult (C * A)). apply Rmult_le_compat_l; [apply Rabs_pos|]. unfold e24 in D1. lra.
  - apply Rle_trans with (1 := T). rewrite <- (Rmult_1_r tiny) at 1. apply tiny118. lra.
Qed.
(** the exposures, the underlying one converted at the rate of exchange, add up
    to the discounted gain: factor * (value - trade price) *)
Theorem c164_adds_up : forall eval und fut fx f m x y v, ff_ccy f <> ff_und_ccy f -> usual fx -> priced eval und (ff_maturity f) -> priced eval fut (ff_maturity f) -> usual (ff_average f) ->
  fx_futures_exposure eval und fut f = Ret (ROk m) -> exposure_in m (ff_und_ccy f) = Some x -> exposure_in m (ff_ccy f) = Some y -> fx_futures_npv eval und fut fx f = Ret (ROk v) ->
  let D := factor_on eval fut (ff_maturity f) in let U := factor_on eval und (ff_maturity f) in
  Rabs (value fx * value x + value y - D * (value v - value (ff_average f))) <= (Rabs (value fx * U) + Rabs (D * value (ff_average f))) * (3 / 2 ^ 24) + / 2 ^ 97.
Proof.
  intros eval und fut fx f m x y v NE UX PU PD UA EM EX EY EV D U.
  destruct (c164_exposure eval und fut f NE PU PD UA) as (m' & x' & y' & EM' & _ & EX' & EY' & _ & _ & VX & VY).
  assert (m' = m) by congruence. subst m'. assert (x' = x) by congruence. assert (y' = y) by congruence. subst x' y'.
  destruct (c164_npv eval und fut fx f UX PU PD) as (v' & r & EV' & _ & VV & _). assert (v' = v) by congruence. subst v'.
  fold U in VX. fold D in VY. fold U D in VV. pose proof (factor_range _ _ _ PD) as RD. pose proof (factor_range _ _ _ PU) as RU. fold D in RD. fold U in RU. rewrite p20 in RD, RU. rewrite p24' in *.
  set (A := value (ff_average f)) in *. set (X := value fx) in *. rewrite VX. set (e := value v - X * U / D) in *. set (h := value y + D * A) in *.
  replace (X * U + value y - D * (value v - A)) with (h - D * e) by (unfold h, e; field; lra).
  replace (h - D * e) with (h + - (D * e)) by ring. apply Rle_trans with (1 := Rabs_triang _ _). rewrite Rabs_Ropp, (Rabs_mult D), (Rabs_pos_eq D) by lra.
  assert (DE : D * Rabs e <= Rabs (X * U) * (3 / 16777216) + 1048576 * / 2 ^ 118).
  { apply Rle_trans with (D * (Rabs (X * U / D) * (3 / 16777216) + / 2 ^ 118)); [apply Rmult_le_compat_l; [lra|exact VV]|].
    unfold Rdiv at 1. rewrite (Rabs_mult (X * U)), Rabs_inv, (Rabs_pos_eq D) by lra. rewrite Rmult_plus_distr_l. apply Rplus_le_compat.
    - apply Req_le. field. lra.
    - apply Rmult_le_compat_r; [|lra]. left. apply Rinv_0_lt_compat. apply pow_lt. lra. }
  assert (P : 1048576 * / 2 ^ 118 + / 2 ^ 118 <= / 2 ^ 97).
  { assert (P118 : 2 ^ 118 = 2097152 * 2 ^ 97) by (replace 2097152 with (2 ^ 21) by (rewrite pow_IZR; reflexivity); rewrite <- pow_add; reflexivity). rewrite P118. assert (0 < 2 ^ 97) by (apply pow_lt; lra). rewrite Rinv_mult.
    assert (0 < / 2 ^ 97) by (apply Rinv_0_lt_compat; assumption). lra. }
  pose proof (Rabs_pos (D * A)). lra.
Qed.
Theorem c164_errors : forall eval und fut fx f,
  ((exists x, fx_futures_npv eval und fut fx f = Ret (ROk x)) <-> (exists U D, discount_at eval und (ff_maturity f) = Ret (ROk U) /\ discount_at eval fut (ff_maturity f) = Ret (ROk D))) /\
  ((exists x, fx_futures_npv eval und fut fx f = Ret (ROk x)) <-> (exists m, fx_futures_exposure eval und fut f = Ret (ROk m))) /\
  (fx_futures_npv eval und fut fx f = Ret RErr <-> fx_futures_exposure eval und fut f = Ret RErr).
Proof.
  intros. unfold fx_futures_npv, fx_futures_exposure. destruct (discount_at eval und (ff_maturity f)) as [[U|]| |]; cbn [rbind]; destruct (discount_at eval fut (ff_maturity f)) as [[D|]| |]; cbn [rbind].
  all: split; [split; [intros [x E]; try discriminate E; eauto|intros (u & d & E1 & E2); try discriminate E1; try discriminate E2; eauto]|].
  all: split; split; try (intros [x E]; try discriminate E; eauto); try (intro E; try discriminate E; reflexivity).
Qed.
(** REFUTED: the exposure takes no account of the notional *)
Theorem c164_notional_refuted : forall eval und fut f n n', 
  fx_futures_exposure eval und fut (FxFutures (ff_average f) (ff_maturity f) n (ff_ccy f) (ff_und_ccy f) (ff_fx f)) =
  fx_futures_exposure eval und fut (FxFutures (ff_average f) (ff_maturity f) n' (ff_ccy f) (ff_und_ccy f) (ff_fx f)).
Proof. reflexivity. Qed.
(** REFUTED: with one currency on both sides, what is to be paid is lost *)
Theorem c164_one_currency_refuted : forall eval und fut f, ff_ccy f = ff_und_ccy f -> priced eval und (ff_maturity f) -> priced eval fut (ff_maturity f) ->
  exists x, fx_futures_exposure eval und fut f = Ret (ROk [(ff_ccy f, x)]) /\ finite x /\ value x = factor_on eval und (ff_maturity f).
Proof.
  intros eval und fut f E (U & EU & FU & BU) (D & ED & FD & BD). unfold fx_futures_exposure. rewrite EU, ED. cbn [rbind ccy_put]. unfold factor_on. rewrite EU, <- E.
  assert (R1 : ccy_eqb (ff_ccy f) (ff_ccy f) = true) by (apply c153_equal; reflexivity). rewrite R1. exists U. auto.
Qed.
(** the pair priced is underlying against futures currency *)
Theorem c164_pair : forall average maturity notional ccy und, let f := fx_futures_new average maturity notional ccy und in
  fx_one (ff_fx f) = und /\ fx_two (ff_fx f) = ccy /\ ff_ccy f = ccy /\ ff_und_ccy f = und /\ ff_average f = average /\ ff_maturity f = maturity /\ ff_notional f = notional.
Proof. repeat split; reflexivity. Qed.

(** ** C165: cash, stock and the exposure of the rest *)
Theorem c165_identity : forall spot, exists r, identity_npv spot = Ret (ROk spot) /\ simple_result (identity_npv spot) = Ret (ROk r) /\ nr_npv r = spot /\ nr_amounts r = [] /\ nr_probs r = [].
Proof. intros. eexists. split; [reflexivity|]. split; [reflexivity|]. auto. Qed.
Theorem c165_unit : exists x r, unit_npv = Ret (ROk x) /\ finite x /\ value x = 1 /\ simple_result unit_npv = Ret (ROk r) /\ nr_npv r = x /\ nr_amounts r = [] /\ nr_probs r = [].
Proof. destruct one_fn as [F V]. eexists _, _. split; [reflexivity|]. split; [exact F|]. split; [exact V|]. split; [reflexivity|]. auto. Qed.
Theorem c165_exposure : forall ccy notional npv, usual notional -> usual npv ->
  exists x, default_exposure ccy notional npv = Ret (ROk [(ccy, x)]) /\ finite x /\ Rabs (value x - value npv * value notional) <= Rabs (value npv * value notional) * (1 / 2 ^ 24) + / 2 ^ 118.
Proof.
  intros ccy notional npv [FN BN] [FV BV]. rewrite p30 in BN, BV. rewrite p24'. set (N := value notional) in *. set (V := value npv) in *.
  assert (VN : Rabs (V * N) <= 1073741824 * 1073741824) by (rewrite Rabs_mult; apply Rmult_le_compat; try apply Rabs_pos; lra).
  destruct (mul_err npv notional V N (conj FV eq_refl) (conj FN eq_refl)) as (y & d & t & [Fy Vy] & D1 & T & E); [apply two100_127; unfold two100; lra|].
  eexists. split; [reflexivity|]. split; [exact Fy|]. unfold value at 1. rewrite Vy, E. replace (V * N * (1 + d) + t - V * N) with (V * N * d + t) by ring. apply Rle_trans with (1 := Rabs_triang _ _). apply Rplus_le_compat.
  - rewrite (Rabs_mult (V * N)). apply Rmult_le_compat_l; [apply Rabs_pos|]. unfold e24 in D1. lra.
  - apply Rle_trans with (1 := T). rewrite <- (Rmult_1_r tiny) at 1. apply tiny118. lra.
Qed.

(** ** Concrete cases: priced on the 15th of March 2024, maturity a year later *)
Definition ex_maturity : odt := day_of 2025 3 17.
Lemma ex_priced : exists f_exp c, good_exp f_exp /\ reached f_exp c /\ priced ex_eval c ex_maturity.
Proof. destruct ex_curve as (c & t9 & H & RR & H9 & B). exists an_exp, c. split; [exact an_exp_good|]. split; [exact H|]. apply (time_priced c t9); try assumption. vm_compute. reflexivity. Qed.
Lemma hundred_usual : forall n, (0 <= n <= 100)%Z -> usual (gof_Z n).
Proof. exact usual_small. Qed.
Example c162_hypotheses_met : exists f_exp c F, good_exp f_exp /\ reached f_exp c /\ usual (gof_Z 100) /\ priced ex_eval c ex_maturity /\ fair_forward ex_eval c c (gof_Z 100) None ex_maturity = Ret (ROk F) /\ finite F /\ Rabs (value F - 100) <= / 1000.
Proof.
  destruct ex_priced as (f_exp & c & G & H & P). destruct one_fn as [F1 V1]. fold (value (gof_Z 1)) in V1.
  destruct (c162_value ex_eval c c (gof_Z 100) None ex_maturity (gof_Z 1) (hundred_usual 100 ltac:(lia)) P P (c124_none _) F1) as (F & E & FF & X); [rewrite V1, Rabs_R1, p10; lra|].
  exists f_exp, c, F. split; [exact G|]. split; [exact H|]. split; [apply hundred_usual; lia|]. split; [exact P|]. split; [exact E|]. split; [exact FF|].
  pose proof (factor_range _ _ _ P) as R. rewrite p20 in R. destruct (small_fin 100 ltac:(lia)) as [_ V100]. unfold real_of in V100. fold (value (gof_Z 100)) in V100. rewrite V1, V100 in X.
  replace (IZR 100 * factor_on ex_eval c ex_maturity / factor_on ex_eval c ex_maturity * 1) with 100 in X by (field; lra). rewrite (Rabs_pos_eq 100) in X by lra. rewrite p24' in X.
  assert (/ 2 ^ 118 <= / 2 ^ 20) by (apply Rinv_le; [apply pow_lt; lra|apply Rle_pow; [lra|lia]]). rewrite p20 in H0. lra.
Qed.
Example c163_hypotheses_met : exists f_exp c F, good_exp f_exp /\ reached f_exp c /\ fair_forward ex_eval c c (gof_Z 100) None ex_maturity = Ret (ROk F) /\ usual F /\ usual (gof_Z 90) /\ usual (gof_Z 10) /\
  fair_forward ex_eval c c (gof_Z 100) None (day_of 2024 2 1) = Ret RErr.
Proof.
  destruct c162_hypotheses_met as (f_exp & c & F & G & H & U & P & E & FF & X). exists f_exp, c, F. split; [exact G|]. split; [exact H|]. split; [exact E|]. split.
  { split; [exact FF|]. rewrite p30. apply Rabs_le_inv in X. apply Rabs_le. lra. }
  split; [apply hundred_usual; lia|]. split; [apply hundred_usual; lia|]. unfold fair_forward, discount_at.
  assert (T : match get_time_difference ex_eval (day_of 2024 2 1) with Ret t => o_lt fcmp t (gof_Z 0) | _ => false end = true) by (vm_compute; reflexivity).
  destruct (get_time_difference ex_eval (day_of 2024 2 1)) as [t| |]; try discriminate T. cbn [obind]. rewrite T. reflexivity.
Qed.
Example c164_hypotheses_met : exists f_exp c, good_exp f_exp /\ reached f_exp c /\ let f := fx_futures_new (gof_Z 90) ex_maturity (gof_Z 1) Ccy_KRW Ccy_USD in
  ff_ccy f <> ff_und_ccy f /\ priced ex_eval c (ff_maturity f) /\ usual (ff_average f) /\ usual (gof_Z 100).
Proof. destruct ex_priced as (f_exp & c & G & H & P). exists f_exp, c. split; [exact G|]. split; [exact H|]. split; [discriminate|]. split; [exact P|]. split; apply hundred_usual; lia. Qed.
Example c165_hypotheses_met : usual (gof_Z 100) /\ usual (gof_Z 10) /\ value (gof_Z 100) = 100.
Proof. split; [apply hundred_usual; lia|]. split; [apply hundred_usual; lia|]. exact (proj2 (small_fin 100 ltac:(lia))). Qed.
Print Assumptions c162_value.
Print Assumptions c162_dividends.
Print Assumptions c162_errors.
Print Assumptions c162_past.
Print Assumptions c162_today.
Print Assumptions c162_past_year_refuted.
Print Assumptions c163_npv.
Print Assumptions c163_exposure.
Print Assumptions c163_panics_refuted.
Print Assumptions c164_npv.
Print Assumptions c164_exposure.
Print Assumptions c164_adds_up.
Print Assumptions c164_errors.
Print Assumptions c164_notional_refuted.
Print Assumptions c164_one_currency_refuted.
Print Assumptions c164_pair.
Print Assumptions c165_identity.
Print Assumptions c165_unit.
Print Assumptions c165_exposure.
