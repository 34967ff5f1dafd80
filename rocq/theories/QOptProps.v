(** QOptProps.v -- C166 to C168: vanilla options. *)
From Coq Require Import ZArith List Reals Lra Lia Bool.
From Flocq Require Import Core IEEE754.BinarySingleNaN.
From Verif Require Import Base CivilSpec FloatModel FloatFacts KrxModel QDateModel QCalModel QCalSpec QYearModel QYearSpec QYearProps QFindModel QInterpModel QInterpSpec QDivModel QDivSpec QDivProps
  QCurveModel QCurveSpec QCurveFacts QCurveExp QFloatErr QLinProps QCurveProps QCurveFwdProps QBondModel QBondSpec QBondProofs QBondPriceProps QCouponProps QMoneyModel QMoneyProps QSwapModel QSwapSpec QSwapProps QFutModel QFutProps
  QCurveProofs QNormal QOptSpec QBlackReal QBlackExp QOptProofs.
Import ListNotations.
Open Scope R_scope.

(** ** What it takes to have a price *)
Lemma ff_disc : forall eval coll borrow spot div d F c, fair_forward eval coll borrow spot div d = Ret (ROk F) -> exists t, get_time_difference eval d = Ret t /\ discount_at eval c d = discount c t.
Proof.
  intros eval coll borrow spot div d F c E. unfold fair_forward, discount_at in E. destruct (get_time_difference eval d) as [t| |] eqn:T; try discriminate E. cbn [obind] in E.
  destruct (o_lt fcmp t (gof_Z 0)) eqn:O; [discriminate E|]. exists t. split; [reflexivity|]. unfold discount_at. rewrite T. cbn [obind]. rewrite O. reflexivity.
Qed.
Definition has_quanto (q : option quanto) : bool := match q with Some _ => true | None => false end.
Lemma npv_ok : forall f_ln f_cdf eval coll borrow disc spot div v q o x, option_npv f_ln f_cdf eval coll borrow disc spot div v q o = Ret (ROk x) <->
  exists F t var dev D, fair_forward eval coll borrow spot div (vo_maturity o) = Ret (ROk F) /\ get_time_difference eval (vo_maturity o) = Ret t /\
    vol_var v t (gdiv (vo_strike o) F) = Ret (ROk var) /\ vol_dev v t (gdiv (vo_strike o) F) = Ret (ROk dev) /\ (vo_ccy o = vo_und_ccy o \/ q <> None) /\
    discount_at eval disc (vo_maturity o) = Ret (ROk D) /\
    x = weigh (vo_type o) F (vo_strike o)
         (f_cdf (gdiv (gsub (gadd (gneg (f_ln (gdiv (vo_strike o) F))) (gdiv var (gof_Z 2))) (adjustment q v t (gdiv (vo_strike o) F))) dev))
         (f_cdf (gsub (gdiv (gsub (gadd (gneg (f_ln (gdiv (vo_strike o) F))) (gdiv var (gof_Z 2))) (adjustment q v t (gdiv (vo_strike o) F))) dev) dev)) D.
Proof.
  intros. unfold option_npv. split.
  - intro E. destruct (fair_forward eval coll borrow spot div (vo_maturity o)) as [[F|]| |] eqn:EF; try discriminate E. cbn [rbind] in E.
    destruct (ff_disc _ _ _ _ _ _ _ disc EF) as (t & T & DD). rewrite T in E. cbn [obind] in E.
    destruct (vol_var v t (gdiv (vo_strike o) F)) as [[var|]| |] eqn:EV; try discriminate E. cbn [rbind] in E. destruct (vol_dev v t (gdiv (vo_strike o) F)) as [[dev|]| |] eqn:ED; try discriminate E. cbn [rbind] in E.
    destruct (negb (ccy_eqb (vo_ccy o) (vo_und_ccy o)) && _) eqn:C; [discriminate E|]. rewrite <- DD in E. destruct (discount_at eval disc (vo_maturity o)) as [[D|]| |] eqn:EDD; try discriminate E. cbn [rbind] in E.
    exists F, t, var, dev, D. rewrite T, EV, ED. split; [reflexivity|]. split; [reflexivity|]. split; [reflexivity|]. split; [reflexivity|]. split; [|split; [reflexivity|]].
    + apply andb_false_iff in C. destruct C as [C|C]; [left; apply c153_equal; apply negb_false_iff; exact C|right; destruct q; [discriminate|discriminate C]].
    + unfold black in E. destruct (vo_type o); injection E as <-; reflexivity.
  - intros (F & t & var & dev & D & EF & T & EV & ED & C & EDD & ->). destruct (ff_disc _ _ _ _ _ _ _ disc EF) as (t' & T' & DD). assert (t' = t) by congruence. subst t'.
    rewrite EF. cbn [rbind]. rewrite T. cbn [obind]. rewrite EV. cbn [rbind]. rewrite ED. cbn [rbind].
    replace (negb (ccy_eqb (vo_ccy o) (vo_und_ccy o)) && _) with false; [rewrite <- DD, EDD; cbn [rbind]; unfold black, weigh; destruct (vo_type o); reflexivity|].
    symmetry. apply andb_false_iff. destruct C as [C|C]; [left; apply negb_false_iff; apply c153_equal; exact C|right; destruct q; [reflexivity|contradiction]].
Qed.

Lemma black_weigh : forall f_ln f_cdf k fwd strike m var dev adj dsc, black f_ln f_cdf k fwd strike m var dev adj dsc =
  weigh k fwd strike (f_cdf (gdiv (gsub (gadd (gneg (f_ln m)) (gdiv var (gof_Z 2))) adj) dev)) (f_cdf (gsub (gdiv (gsub (gadd (gneg (f_ln m)) (gdiv var (gof_Z 2))) adj) dev) dev)) dsc.
Proof. intros. destruct k; reflexivity. Qed.

(** ** C166: calls and puts, whatever the volatility is *)
(** a call has a price exactly if the put has one, and exactly if forward,
    volatility and discount factor exist and no quanto data are missing *)
Theorem c166_errors : forall f_ln f_cdf eval coll borrow disc spot div v q o,
  ((exists x, option_npv f_ln f_cdf eval coll borrow disc spot div v q o = Ret (ROk x)) <->
   exists F t var dev D, fair_forward eval coll borrow spot div (vo_maturity o) = Ret (ROk F) /\ get_time_difference eval (vo_maturity o) = Ret t /\
     vol_var v t (gdiv (vo_strike o) F) = Ret (ROk var) /\ vol_dev v t (gdiv (vo_strike o) F) = Ret (ROk dev) /\ discount_at eval disc (vo_maturity o) = Ret (ROk D) /\
     (vo_ccy o = vo_und_ccy o \/ q <> None)) /\
  (forall x, option_npv f_ln f_cdf eval coll borrow disc spot div v q o = Ret (ROk x) ->
     exists r, option_result f_ln f_cdf eval coll borrow disc spot div v q o = Ret (ROk r) /\ nr_npv r = x /\ nr_amounts r = [] /\ nr_probs r = []) /\
  (option_npv f_ln f_cdf eval coll borrow disc spot div v q o = Ret RErr <-> option_result f_ln f_cdf eval coll borrow disc spot div v q o = Ret RErr) /\
  (option_npv f_ln f_cdf eval coll borrow disc spot div v q (as_type Call o) = Ret RErr <-> option_npv f_ln f_cdf eval coll borrow disc spot div v q (as_type Put o) = Ret RErr).
Proof.
  intros. split; [|split; [|split]].
  - split.
    + intros [x E]. apply npv_ok in E. destruct E as (F & t & var & dev & D & A & B & C & G & H & I & _). exists F, t, var, dev, D. repeat split; assumption.
    + intros (F & t & var & dev & D & A & B & C & G & H & I). eexists. apply npv_ok. exists F, t, var, dev, D. repeat (split; [eassumption|]). reflexivity.
  - intros x E. unfold option_result. rewrite E. cbn [rbind]. eexists. split; [reflexivity|]. auto.
  - unfold option_result. destruct (option_npv f_ln f_cdf eval coll borrow disc spot div v q o) as [[x|]| |]; cbn [rbind]; split; intro E; try discriminate E; reflexivity.
  - unfold option_npv, as_type. cbn [vo_strike vo_maturity vo_ccy vo_und_ccy vo_type]. destruct (fair_forward eval coll borrow spot div (vo_maturity o)) as [[F|]| |]; cbn [rbind]; try reflexivity.
    destruct (get_time_difference eval (vo_maturity o)) as [t| |]; cbn [obind]; try reflexivity. destruct (vol_var v t (gdiv (vo_strike o) F)) as [[var|]| |]; cbn [rbind]; try reflexivity.
    destruct (vol_dev v t (gdiv (vo_strike o) F)) as [[dev|]| |]; cbn [rbind]; try reflexivity. destruct (negb (ccy_eqb (vo_ccy o) (vo_und_ccy o)) && _); [reflexivity|]. destruct (discount disc t) as [[D|]| |]; cbn [rbind]; try reflexivity.
    split; intro E; discriminate E.
Qed.
Lemma cdf_unit : forall f_cdf x, good_cdf f_cdf -> finite (f_cdf x) -> 0 <= value (f_cdf x) <= 1.
Proof.
  intros f_cdf x (G & (_ & P) & (_ & N) & NN) F. destruct x as [s|s| |s m e h].
  - apply G. reflexivity.
  - destruct s; [rewrite N|rewrite P]; lra.
  - unfold finite in F. rewrite NN in F. discriminate F.
  - apply G. reflexivity.
Qed.
Lemma mul_parts : forall x y : f32, finite (gmul x y) -> finite x /\ finite y.
Proof. intros x y F. destruct x as [a|a| |a m e h]; destruct y as [b|b| |b m' e' h']; split; try reflexivity; try discriminate F. Qed.
Lemma sub_parts : forall x y : f32, finite (gsub x y) -> finite x /\ finite y.
Proof. intros x y F. destruct x as [a|a| |a m e h]; destruct y as [b|b| |b m' e' h']; split; try reflexivity; try discriminate F; destruct a; destruct b; discriminate F. Qed.
Lemma weigh_parts : forall k fwd strike a b dsc, finite (weigh k fwd strike a b dsc) -> finite a /\ finite b.
Proof.
  intros k fwd strike a b dsc F. destruct k; unfold weigh in F; apply mul_parts in F; destruct F as [_ F]; apply sub_parts in F; destruct F as [F1 F2]; apply mul_parts in F1; apply mul_parts in F2; destruct F1 as [_ F1]; destruct F2 as [_ F2]; [auto|].
  apply sub_parts in F1. apply sub_parts in F2. tauto.
Qed.
(** put-call parity: call less put is the discounted difference of forward and
    strike, and neither is worth more than the discounted forward or strike *)
Theorem c166_parity : forall f_ln f_cdf eval coll borrow disc spot div v q o F c p, good_cdf f_cdf ->
  fair_forward eval coll borrow spot div (vo_maturity o) = Ret (ROk F) -> level_ok F -> level_ok (vo_strike o) -> priced eval disc (vo_maturity o) ->
  option_npv f_ln f_cdf eval coll borrow disc spot div v q (as_type Call o) = Ret (ROk c) -> option_npv f_ln f_cdf eval coll borrow disc spot div v q (as_type Put o) = Ret (ROk p) -> finite c ->
  let D := factor_on eval disc (vo_maturity o) in let K := value (vo_strike o) in
  finite p /\ Rabs ((value c - value p) - D * (value F - K)) <= D * (value F + K) * (10 / 2 ^ 24) + / 2 ^ 117 /\
  value c <= D * value F + D * (value F + K) * (5 / 2 ^ 24) + / 2 ^ 118 /\ value p <= D * K + D * (value F + K) * (5 / 2 ^ 24) + / 2 ^ 118.
Proof.
  intros f_ln f_cdf eval coll borrow disc spot div v q o F c p GC EF [FF BF] [FK BK] (D0 & ED & FD & BD) EC EP Fc D K.
  apply npv_ok in EC. apply npv_ok in EP. destruct EC as (F1 & t1 & var1 & dev1 & D1 & A1 & T1 & V1 & S1 & _ & G1 & ->). destruct EP as (F2 & t2 & var2 & dev2 & D2 & A2 & T2 & V2 & S2 & _ & G2 & ->).
  unfold as_type in *. cbn [vo_strike vo_maturity vo_ccy vo_und_ccy vo_type] in *.
  assert (F1 = F) by congruence. assert (F2 = F) by congruence. subst F1 F2. assert (t2 = t1) by congruence. subst t2. assert (var2 = var1) by congruence. assert (dev2 = dev1) by congruence. subst var2 dev2.
  assert (D1 = D0) by congruence. assert (D2 = D0) by congruence. subst D1 D2. unfold D, factor_on. rewrite ED. clear D. set (D := value D0) in *.
  set (n1 := f_cdf (gdiv _ _)) in *. set (n2 := f_cdf (gsub _ _)) in *. destruct (weigh_parts _ _ _ _ _ _ Fc) as [N1 N2]. pose proof (cdf_unit f_cdf _ GC N1) as B1. pose proof (cdf_unit f_cdf _ GC N2) as B2. fold n1 in B1. fold n2 in B2.
  rewrite p20 in BD. assert (BD' : 0 <= value D0 <= 2 ^ 20) by (rewrite p20; fold D; lra).
  destruct (weigh_close Call F (vo_strike o) n1 n2 D0 FF ltac:(lra) FK ltac:(lra) FD BD' N1 B1 N2 B2) as (zc & [_ Vc] & Ec). destruct (weigh_close Put F (vo_strike o) n1 n2 D0 FF ltac:(lra) FK ltac:(lra) FD BD' N1 B1 N2 B2) as (zp & [Fp Vp] & Ep).
  split; [exact Fp|]. match type of Vc with B2R ?x = _ => change (value x = zc) in Vc; rewrite Vc end. match type of Vp with B2R ?x = _ => change (value x = zp) in Vp; rewrite Vp end. fold D K in Ec, Ep. set (f := value F) in *. cbn [weighted] in Ec, Ep. set (a := value n1) in *. set (b := value n2) in *. rewrite p24'.
  assert (P117 : / 2 ^ 117 = 2 * / 2 ^ 118) by (change (2 ^ 118) with (2 * 2 ^ 117); rewrite Rinv_mult; assert (0 < 2 ^ 117) by (apply pow_lt; lra); field; lra). rewrite P117. unfold e24 in Ec, Ep.
  assert (f * a <= f) by (rewrite <- (Rmult_1_r f) at 2; apply Rmult_le_compat_l; lra). assert (K * b <= K) by (rewrite <- (Rmult_1_r K) at 2; apply Rmult_le_compat_l; unfold K; lra).
  assert (0 <= K * b) by (apply Rmult_le_pos; unfold K; lra). assert (0 <= f * a) by (apply Rmult_le_pos; lra). assert (0 <= f * (1 - a)) by (apply Rmult_le_pos; lra).
  assert (D * (f * a - K * b) <= D * f) by (apply Rmult_le_compat_l; lra). assert (D * (K * (1 - b) - f * (1 - a)) <= D * K) by (apply Rmult_le_compat_l; lra).
  apply Rabs_le_inv in Ec. apply Rabs_le_inv in Ep. split; [|split; lra].
  replace (zc - zp - D * (f - K)) with ((zc - D * (f * a - K * b)) - (zp - D * (K * (1 - b) - f * (1 - a)))) by ring. apply Rabs_le. lra.
Qed.

(** ** C167: a constant volatility *)
Definition black_error (D F K s : R) : R := D * (F + K) * ((9 + (7 * Rabs (ln (K / F)) + 1 + 4 * (s * s)) / s) / 2 ^ 24) + / 2 ^ 118.
(** the price is the discounted value of Black's formula *)
Theorem c167_value : forall f_ln f_cdf eval coll borrow disc spot div vol o F t, good_ln f_ln -> good_cdf f_cdf ->
  fair_forward eval coll borrow spot div (vo_maturity o) = Ret (ROk F) -> level_ok F -> level_ok (vo_strike o) -> / 2 ^ 20 <= value (vo_strike o) / value F <= 2 ^ 20 ->
  priced eval disc (vo_maturity o) -> vo_ccy o = vo_und_ccy o -> finite vol -> / 2 ^ 10 <= value vol <= 16 ->
  get_time_difference eval (vo_maturity o) = Ret t -> finite t -> / 2 ^ 20 <= value t <= 128 ->
  let D := factor_on eval disc (vo_maturity o) in let K := value (vo_strike o) in let s := value vol * sqrt (value t) in
  exists x, option_npv f_ln f_cdf eval coll borrow disc spot div (constant_vol vol) None o = Ret (ROk x) /\ finite x /\
    Rabs (value x - D * black_value (vo_type o) (value F) K s) <= black_error D (value F) K s.
Proof.
  intros f_ln f_cdf eval coll borrow disc spot div vol o F t GL GC EF [FF BF] [FK BK] R (D0 & ED & FD & BD) CC FV BV T FT BT D K s.
  assert (BD' : 0 <= value D0 <= 2 ^ 20) by (rewrite p20 in *; lra).
  destruct (black_close f_ln f_cdf (vo_type o) F (vo_strike o) vol t D0 GL GC FF BF FK BK R FV BV FT BT FD BD') as (z & Fz & Ez).
  rewrite black_weigh in Fz. destruct Fz as [Fz Vz]. eexists.
  split; [apply npv_ok; exists F, t; do 3 eexists; split; [exact EF|]; split; [exact T|]; split; [reflexivity|]; split; [reflexivity|]; split; [left; exact CC|]; split; [exact ED|reflexivity]|].
  unfold D, factor_on. rewrite ED. split; [exact Fz|]. unfold black_error, adjustment. match type of Vz with B2R ?x = _ => change (value x = z) in Vz; rewrite Vz end. exact Ez.
Qed.
(** which is above the discounted payoff at the forward and below the forward
    or the strike *)
Theorem c167_bounds : forall f_ln f_cdf eval coll borrow disc spot div vol o F t x, good_ln f_ln -> good_cdf f_cdf ->
  fair_forward eval coll borrow spot div (vo_maturity o) = Ret (ROk F) -> level_ok F -> level_ok (vo_strike o) -> / 2 ^ 20 <= value (vo_strike o) / value F <= 2 ^ 20 ->
  priced eval disc (vo_maturity o) -> vo_ccy o = vo_und_ccy o -> finite vol -> / 2 ^ 10 <= value vol <= 16 ->
  get_time_difference eval (vo_maturity o) = Ret t -> finite t -> / 2 ^ 20 <= value t <= 128 ->
  option_npv f_ln f_cdf eval coll borrow disc spot div (constant_vol vol) None o = Ret (ROk x) ->
  let D := factor_on eval disc (vo_maturity o) in let K := value (vo_strike o) in let e := black_error D (value F) K (value vol * sqrt (value t)) in
  D * payoff (vo_type o) (value F) K - e <= value x <= D * (match vo_type o with Call => value F | Put => K end) + e.
Proof.
  intros f_ln f_cdf eval coll borrow disc spot div vol o F t x GL GC EF LF LK R P CC FV BV T FT BT EX D K e.
  destruct (c167_value f_ln f_cdf eval coll borrow disc spot div vol o F t GL GC EF LF LK R P CC FV BV T FT BT) as (x' & EX' & _ & A). assert (x' = x) by congruence. subst x'.
  fold D K in A. fold e in A. destruct LF as [_ LF]. destruct LK as [_ LK]. pose proof (factor_range _ _ _ P) as FR. fold D in FR.
  assert (PS : 0 < value vol * sqrt (value t)). { rewrite p10 in BV. rewrite p20 in BT. apply Rmult_lt_0_compat; [lra|]. apply sqrt_lt_R0. lra. }
  pose proof (black_bounds (vo_type o) (value F) K _ ltac:(lra) ltac:(unfold K; lra) PS) as B. rewrite p20 in FR. assert (PD : 0 < D) by lra. set (b := black_value _ _ _ _) in *. set (y := payoff _ _ _) in *. set (u := match vo_type o with Call => value F | Put => K end) in *.
  assert (D * y <= D * b) by (apply Rmult_le_compat_l; lra). assert (D * b <= D * u) by (apply Rmult_le_compat_l; lra). apply Rabs_le_inv in A. lra.
Qed.
(** and it does not fall as the volatility rises *)
Theorem c167_vega : forall f_ln f_cdf eval coll borrow disc spot div vol1 vol2 o F t x1 x2, good_ln f_ln -> good_cdf f_cdf ->
  fair_forward eval coll borrow spot div (vo_maturity o) = Ret (ROk F) -> level_ok F -> level_ok (vo_strike o) -> / 2 ^ 20 <= value (vo_strike o) / value F <= 2 ^ 20 ->
  priced eval disc (vo_maturity o) -> vo_ccy o = vo_und_ccy o -> finite vol1 -> finite vol2 -> / 2 ^ 10 <= value vol1 -> value vol1 < value vol2 -> value vol2 <= 16 ->
  get_time_difference eval (vo_maturity o) = Ret t -> finite t -> / 2 ^ 20 <= value t <= 128 ->
  option_npv f_ln f_cdf eval coll borrow disc spot div (constant_vol vol1) None o = Ret (ROk x1) -> option_npv f_ln f_cdf eval coll borrow disc spot div (constant_vol vol2) None o = Ret (ROk x2) ->
  let D := factor_on eval disc (vo_maturity o) in let K := value (vo_strike o) in
  value x1 <= value x2 + black_error D (value F) K (value vol1 * sqrt (value t)) + black_error D (value F) K (value vol2 * sqrt (value t)).
Proof.
  intros f_ln f_cdf eval coll borrow disc spot div v1 v2 o F t x1 x2 GL GC EF LF LK R P CC F1 F2 L1 L2 L3 T FT BT EX1 EX2 D K.
  destruct (c167_value f_ln f_cdf eval coll borrow disc spot div v1 o F t GL GC EF LF LK R P CC F1 ltac:(lra) T FT BT) as (y1 & EY1 & _ & A1). destruct (c167_value f_ln f_cdf eval coll borrow disc spot div v2 o F t GL GC EF LF LK R P CC F2 ltac:(lra) T FT BT) as (y2 & EY2 & _ & A2).
  assert (y1 = x1) by congruence. assert (y2 = x2) by congruence. subst y1 y2. fold D K in A1, A2. destruct LF as [_ LF]. destruct LK as [_ LK]. pose proof (factor_range _ _ _ P) as FR. fold D in FR.
  rewrite p10 in L1. rewrite p20 in BT, FR. assert (PS : 0 < sqrt (value t)) by (apply sqrt_lt_R0; lra).
  assert (SS : 0 < value v1 * sqrt (value t) < value v2 * sqrt (value t)) by (split; [apply Rmult_lt_0_compat; lra|apply Rmult_lt_compat_r; lra]).
  pose proof (black_grows (vo_type o) (value F) K _ _ ltac:(lra) ltac:(unfold K; lra) SS) as B. set (b1 := black_value _ _ _ (value v1 * _)) in *. set (b2 := black_value _ _ _ (value v2 * _)) in *.
  assert (D * b1 <= D * b2) by (apply Rmult_le_compat_l; lra). apply Rabs_le_inv in A1. apply Rabs_le_inv in A2. lra.
Qed.
(** Black's formula is the expected payoff when the price at maturity is
    lognormal around the forward *)
Theorem c167_expected : forall k F K s e, 0 < F -> 0 < K -> 0 < s -> 0 < e ->
  exists M, forall L, M <= L -> exists v : R, @Coquelicot.RInt.is_RInt Coquelicot.Hierarchy.R_NormedModule (fun x => payoff k (lognormal F s x) K * phi x) (- L) L v /\ Rabs (v - black_value k F K s) <= e.
Proof. exact black_expected. Qed.

(** ** C168: the edges *)
Lemma fmt : forall x : f32, generic_format radix2 (FLT_exp (-149) 24) (value x).
Proof. intro x. exact (generic_format_B2R 24 128 x). Qed.
Lemma quotient_below : forall K F : f32, 0 < value K < value F -> value K / value F <= 1 - / 2 ^ 24.
Proof.
  intros K F [PK L]. assert (PF : 0 < value F) by lra.
  assert (Q : value K <= value F - value F * / 2 ^ 24).
  { apply Rle_trans with (pred radix2 (FLT_exp (-149) 24) (value F)); [apply pred_ge_gt; [apply FLT_exp_valid; reflexivity|apply fmt|apply fmt|exact L]|].
    rewrite pred_eq_pos by lra. unfold pred_pos. replace (/ 2 ^ 24) with (bpow radix2 (-24)) by (rewrite pow_IZR; reflexivity).
    destruct (Req_bool_spec (value F) (bpow radix2 (mag radix2 (value F) - 1))) as [E|E].
    - apply Rplus_le_compat_l. apply Ropp_le_contravar. rewrite E at 1. rewrite <- bpow_plus. apply bpow_le. unfold FLT_exp. lia.
    - apply Rplus_le_compat_l. apply Ropp_le_contravar. left. pose proof (ulp_FLT_gt radix2 (-149) 24 (value F)) as U. rewrite (Rabs_pos_eq (value F)) in U by lra. exact U. }
  apply Rmult_le_reg_r with (value F); [exact PF|]. unfold Rdiv. rewrite Rmult_assoc, Rinv_l by lra. lra.
Qed.
Lemma quotient_above : forall K F : f32, 0 < value F < value K -> 1 + / 2 ^ 24 < value K / value F.
Proof.
  intros K F [PF L].
  assert (Q : value F + value F * / 2 ^ 24 < value K).
  { apply Rlt_le_trans with (succ radix2 (FLT_exp (-149) 24) (value F)); [|apply succ_le_lt; [apply FLT_exp_valid; reflexivity|apply fmt|apply fmt|exact L]].
    rewrite succ_eq_pos by lra. apply Rplus_lt_compat_l. replace (/ 2 ^ 24) with (bpow radix2 (-24)) by (rewrite pow_IZR; reflexivity). pose proof (ulp_FLT_gt radix2 (-149) 24 (value F)) as U. rewrite (Rabs_pos_eq (value F)) in U by lra. exact U. }
  apply Rmult_lt_reg_r with (value F); [exact PF|]. unfold Rdiv. rewrite (Rmult_assoc (value K)), Rinv_l by lra. lra.
Qed.
(** different numbers have a quotient that is not 1, even rounded *)
Lemma moneyness_sign : forall K F : f32, level_ok K -> level_ok F -> / 2 ^ 20 <= value K / value F <= 2 ^ 20 -> finite (gdiv K F) /\ 0 < value (gdiv K F) /\ (value K < value F -> value (gdiv K F) < 1) /\ (value F < value K -> 1 < value (gdiv K F)).
Proof.
  intros K F [FK BK] [FF BF] R. rewrite p20 in R. assert (A : Rabs (value K / value F) = value K / value F) by (apply Rabs_pos_eq; lra).
  assert (FD : fn (gdiv K F) (rnd 24 128 (value K / value F))) by (apply fin_div; [split; [exact FK|reflexivity]|split; [exact FF|reflexivity]|lra|rewrite hug; apply two100_127; rewrite A; pose proof big100; lra]).
  destruct FD as [FD VD]. fold (value (gdiv K F)) in VD. split; [exact FD|]. rewrite VD. clear VD FD.
  destruct (rnd_rel (value K / value F)) as (d & D & E); [rewrite A; pose proof small100; lra|]. destruct (abs_one d D) as [_ D1]. apply Rabs_le_inv in D.
  split; [rewrite E; apply Rmult_lt_0_compat; lra|]. split; intro L.
  - pose proof (quotient_below K F ltac:(lra)) as Q. rewrite E. rewrite p24' in Q. unfold e24 in D. assert (0 < value K / value F) by lra. set (x := value K / value F) in *. assert (x * d <= x * / 16777216) by (apply Rmult_le_compat_l; lra). lra.
  - pose proof (quotient_above K F ltac:(lra)) as Q. rewrite p24' in Q. set (x := value K / value F) in *. destruct (Rle_or_lt 2 x) as [G|G].
    + rewrite E. assert (2 * 0.999 <= x * (1 + d)) by (apply Rmult_le_compat; lra). lra.
    + pose proof (error_le_half_ulp radix2 (FLT_exp (-149) 24) (fun z => negb (Z.even z)) x) as H. fold (ZnearestE) in H. change (Rabs (rnd 24 128 x - x) <= / 2 * ulp radix2 (FLT_exp (-149) 24) x) in H.
      assert (U : ulp radix2 (FLT_exp (-149) 24) x = / 8388608). { rewrite ulp_neq_0 by lra. unfold cexp. rewrite (mag_unique_pos radix2 x 1) by (cbn; unfold Z.pow_pos; cbn; lra). cbn. unfold Z.pow_pos; cbn. lra. }
      rewrite U in H. apply Rabs_le_inv in H. lra.
Qed.
Lemma ln_sign : forall f_ln x, good_ln f_ln -> finite x -> 0 < value x -> finite (f_ln x) /\ (value x < 1 -> value (f_ln x) < 0) /\ (value x = 1 -> value (f_ln x) = 0) /\ (1 < value x -> 0 < value (f_ln x)).
Proof.
  intros f_ln x GL F P. destruct (GL x F P) as [FL E]. assert (P22 : 2 ^ 22 = 4194304) by (rewrite pow_IZR; reflexivity). rewrite P22 in E. split; [exact FL|]. set (l := ln (value x)) in *. split; [|split]; intro H.
  - assert (l < 0) by (unfold l; rewrite <- ln_1; apply ln_increasing; lra). rewrite (Rabs_left l) in E by lra. apply Rabs_le_inv in E. lra.
  - assert (l = 0) by (unfold l; rewrite H; apply ln_1). rewrite H0, Rabs_R0 in E. apply Rabs_le_inv in E. lra.
  - assert (0 < l) by (unfold l; rewrite <- ln_1; apply ln_increasing; lra). rewrite (Rabs_pos_eq l) in E by lra. apply Rabs_le_inv in E. lra.
Qed.
(** the numerator of the argument, when there is no variance *)
Lemma numerator : forall yf vf : f32, finite yf -> Rabs (value yf) <= two100 -> fn vf 0 -> fn (gsub (gadd (gneg yf) (gdiv vf (gof_Z 2))) (gof_Z 0)) (- value yf).
Proof.
  intros yf vf FY BY FV. assert (BP : Rabs (- value yf) <= bpow radix2 127) by (rewrite Rabs_Ropp; apply two100_127; pose proof big100; lra).
  assert (FH : fn (gdiv vf (gof_Z 2)) 0). { pose proof (fin_div 24 128 vf (gof_Z 2) 0 2 FV two_fn ltac:(lra)) as Q. unfold Rdiv in Q. rewrite Rmult_0_l in Q. rewrite rnd_0 in Q. apply Q. rewrite Rabs_R0, hug. apply bpow_ge_0. }
  pose proof (fin_neg 24 128 yf (value yf) (conj FY eq_refl)) as FN. assert (RX : rnd 24 128 (- value yf) = - value yf) by (destruct FN as [_ V]; rewrite <- V; apply rnd_B2R).
  assert (FA : fn (gadd (gneg yf) (gdiv vf (gof_Z 2))) (- value yf)). { pose proof (fin_add 24 128 _ _ _ _ FN FH) as Q. rewrite Rplus_0_r, RX in Q. apply Q. exact BP. }
  pose proof (fin_sub 24 128 _ _ _ _ FA zero_fn) as Q. rewrite Rminus_0_r, RX in Q. apply Q. exact BP.
Qed.
Lemma over_zero : forall (x : f32) X, fn x X -> X <> 0 -> gdiv x gzero = B754_infinity (Rlt_bool X 0).
Proof.
  intros x X [F V] N. destruct x as [s|s| |s m e h]; try discriminate F; [exfalso; apply N; rewrite <- V; reflexivity|]. unfold gzero. cbn. f_equal. rewrite <- V. cbn [B2R]. unfold F2R; cbn [Defs.Fnum Defs.Fexp]. pose proof (bpow_gt_0 radix2 e) as P. destruct s; cbn.
  - symmetry. apply Rlt_bool_true. assert (IZR (Z.neg m) < 0) by (apply IZR_lt; lia). assert (0 < - IZR (Z.neg m) * bpow radix2 e) by (apply Rmult_lt_0_compat; lra). lra.
  - symmetry. apply Rlt_bool_false. apply Rmult_le_pos; [apply IZR_le; lia|lra].
Qed.
Lemma same_time : forall s, get_time_difference s s = Ret gzero.
Proof.
  intro s. unfold get_time_difference, over_years. replace (date_year (od_day s) - date_year (od_day s) + 1)%Z with 1%Z by lia. change (Z.to_nat 1) with 1%nat. cbn [year_loop].
  unfold time_part. rewrite !Z.eqb_refl. cbn [obind]. replace (instant s - instant s)%Z with 0%Z by lia. destruct (leap_or (date_year (od_day s))) as [-> | ->]; vm_compute; reflexivity.
Qed.
Lemma minus_zero : forall (s : bool), gsub (B754_infinity s : f32) gzero = B754_infinity s.
Proof. intro s. destruct s; reflexivity. Qed.
Lemma no_variance : forall (vol : f32), finite vol -> 0 < value vol <= 16 -> fn (gmul (gmul vol vol) gzero) 0 /\ gmul vol (gsqrt gzero) = gzero.
Proof.
  intros vol F B. split.
  - assert (VV : 0 < value vol * value vol <= 256). { split; [apply Rmult_lt_0_compat; lra|]. replace 256 with (16 * 16) by ring. apply Rmult_le_compat; lra. }
    assert (FV : fn (gmul vol vol) (rnd 24 128 (value vol * value vol))) by (apply fin_mul; [split; [exact F|reflexivity]|split; [exact F|reflexivity]|rewrite hug; apply two100_127; rewrite Rabs_pos_eq by lra; pose proof big100; lra]).
    pose proof (fin_mul 24 128 _ _ _ _ FV zero_fn) as Q. rewrite Rmult_0_r, rnd_0 in Q. change (gof_Z 0 : f32) with (gzero : f32) in Q. apply Q. rewrite Rabs_R0, hug. apply bpow_ge_0.
  - destruct vol as [s|s| |s m e h]; try discriminate F; [cbn in B; lra|]. destruct s; [|reflexivity]. exfalso. cbn in B. unfold F2R in B; cbn in B. pose proof (bpow_gt_0 radix2 e) as P. assert (IZR (Z.neg m) < 0) by (apply IZR_lt; lia). assert (0 < - IZR (Z.neg m) * bpow radix2 e) by (apply Rmult_lt_0_compat; lra). lra.
Qed.
Lemma at_once : forall f_ln f_cdf eval coll borrow disc spot div vol o F, good_ln f_ln -> good_cdf f_cdf -> get_time_difference eval (vo_maturity o) = Ret gzero ->
  fair_forward eval coll borrow spot div (vo_maturity o) = Ret (ROk F) -> level_ok F -> level_ok (vo_strike o) -> / 2 ^ 20 <= value (vo_strike o) / value F <= 2 ^ 20 ->
  priced eval disc (vo_maturity o) -> vo_ccy o = vo_und_ccy o -> finite vol -> 0 < value vol <= 16 ->
  let D := factor_on eval disc (vo_maturity o) in let K := value (vo_strike o) in
  exists x, option_npv f_ln f_cdf eval coll borrow disc spot div (constant_vol vol) None o = Ret (ROk x) /\
    (K <> value F -> finite x /\ Rabs (value x - D * payoff (vo_type o) (value F) K) <= D * (value F + K) * (5 / 2 ^ 24) + / 2 ^ 118) /\
    (K = value F -> ~ finite x).
Proof.
  intros f_ln f_cdf eval coll borrow disc spot div vol o F GL GC T EF LF LK R (D0 & ED & FD & BD) CC FV BV D K.
  eexists. split; [apply npv_ok; exists F, gzero; do 3 eexists; split; [exact EF|]; split; [exact T|]; split; [reflexivity|]; split; [reflexivity|]; split; [left; exact CC|]; split; [exact ED|reflexivity]|].
  unfold D, factor_on. rewrite ED. clear D. set (D := value D0) in *. unfold adjustment.
  destruct (moneyness_sign (vo_strike o) F LK LF R) as (FM & PM & LM & GM). fold K in LM, GM. set (m := gdiv (vo_strike o) F) in *. destruct (ln_sign f_ln m GL FM PM) as (FL & L1 & L2 & L3).
  destruct (no_variance vol FV BV) as [NV ND]. rewrite ND. destruct LF as [FF BF]. destruct LK as [FK BK]. fold K in BK.
  assert (BL : Rabs (value (f_ln m)) <= two100).
  { destruct (log_close f_ln (vo_strike o) F GL FK FF ltac:(unfold K in *; lra) ltac:(lra) ltac:(rewrite p20 in R; exact R)) as (Y & [_ VY] & EY). fold m in VY. fold (value (f_ln m)) in VY. rewrite VY. pose proof (ln_bound (value (vo_strike o) / value F) ltac:(rewrite p20 in R; exact R)) as B20. set (l := ln _) in *.
    replace Y with ((Y - l) + l) by ring. apply Rle_trans with (1 := Rabs_triang _ _). pose proof big100. unfold e24 in EY. lra. }
  pose proof (numerator (f_ln m) _ FL BL NV) as NU. set (nu := gsub (gadd _ _) _) in *.
  rewrite p20 in BD. assert (BD' : 0 <= value D0 <= 2 ^ 20) by (rewrite p20; fold D; lra). destruct GC as (_ & (GP & GP') & (GN & GN') & GNaN).
  split.
  - intro NE. assert (Y0 : - value (f_ln m) <> 0 /\ (Rlt_bool (- value (f_ln m)) 0 = true <-> value F < K)).
    { destruct (Rtotal_order K (value F)) as [L|[E|L]]; [|contradiction|].
      - specialize (L1 (LM L)). split; [lra|]. split; intro Q; [|lra]. destruct (Rlt_bool_spec (- value (f_ln m)) 0); [lra|discriminate Q].
      - specialize (L3 (GM L)). split; [lra|]. split; intro Q; [exact L|]. apply Rlt_bool_true. lra. }
    destruct Y0 as [Y0 SG]. rewrite (over_zero nu _ NU Y0). rewrite minus_zero. destruct (Rlt_bool (- value (f_ln m)) 0) eqn:S.
    + assert (L : value F < K) by (apply SG; reflexivity).
      destruct (weigh_close (vo_type o) F (vo_strike o) _ _ D0 FF ltac:(lra) FK ltac:(fold K; lra) FD BD' GN ltac:(lra) GN ltac:(lra)) as (z & [Fz Vz] & Ez). split; [exact Fz|]. match type of Vz with B2R ?x = _ => change (value x = z) in Vz; rewrite Vz end.
      fold D K in Ez. rewrite GN' in Ez. rewrite p24'. unfold e24 in Ez. replace (payoff (vo_type o) (value F) K) with (weighted (vo_type o) (value F) K 0 0); [lra|]. unfold payoff, weighted. destruct (vo_type o); [rewrite Rmax_right by lra; ring|rewrite Rmax_left by lra; ring].
    + assert (L : ~ value F < K) by (intro Q; apply SG in Q; discriminate Q).
      destruct (weigh_close (vo_type o) F (vo_strike o) _ _ D0 FF ltac:(lra) FK ltac:(fold K; lra) FD BD' GP ltac:(lra) GP ltac:(lra)) as (z & [Fz Vz] & Ez). split; [exact Fz|]. match type of Vz with B2R ?x = _ => change (value x = z) in Vz; rewrite Vz end.
      fold D K in Ez. rewrite GP' in Ez. rewrite p24'. unfold e24 in Ez. replace (payoff (vo_type o) (value F) K) with (weighted (vo_type o) (value F) K 1 1); [lra|]. unfold payoff, weighted. destruct (vo_type o); [rewrite Rmax_left by lra; ring|rewrite Rmax_right by lra; ring].
  - intros E Q. assert (M1 : value m = 1).
    { unfold m. destruct (fin_div 24 128 (vo_strike o) F K (value F)) as [_ V]; [split; [exact FK|reflexivity]|split; [exact FF|reflexivity]|lra|rewrite hug; apply two100_127; rewrite E; unfold Rdiv; rewrite Rinv_r by lra; rewrite Rabs_R1; pose proof big100; lra|].
      unfold value. rewrite V, E. unfold Rdiv. rewrite Rinv_r by lra. destruct one_fn as [_ V1]. rewrite <- V1. apply rnd_B2R. }
    specialize (L2 M1). apply weigh_parts in Q. destruct Q as [Q _].
    assert (NZ : exists s, nu = B754_zero s). { destruct NU as [FN VN]. rewrite L2, Ropp_0 in VN. destruct nu as [s|s| |s mm e h]; try discriminate FN; [exists s; reflexivity|]. exfalso. cbn in VN. unfold F2R in VN; cbn in VN. pose proof (bpow_gt_0 radix2 e) as P. apply Rmult_integral in VN. destruct VN as [VN|VN]; [|lra]. apply eq_IZR in VN. destruct s; discriminate VN. }
    destruct NZ as [s NZ]. rewrite NZ in Q. change (gdiv (B754_zero s) gzero) with (B754_nan : f32) in Q. unfold finite in Q. rewrite GNaN in Q. discriminate Q.
Qed.
(** on the day of maturity the price is the payoff, unless the strike is the
    forward *)
Theorem c168_expiry : forall f_ln f_cdf eval coll borrow disc spot div vol o F, good_ln f_ln -> good_cdf f_cdf -> vo_maturity o = eval ->
  fair_forward eval coll borrow spot div eval = Ret (ROk F) -> level_ok F -> level_ok (vo_strike o) -> / 2 ^ 20 <= value (vo_strike o) / value F <= 2 ^ 20 ->
  priced eval disc eval -> vo_ccy o = vo_und_ccy o -> finite vol -> 0 < value vol <= 16 -> value (vo_strike o) <> value F ->
  let D := factor_on eval disc eval in let K := value (vo_strike o) in
  exists x, option_npv f_ln f_cdf eval coll borrow disc spot div (constant_vol vol) None o = Ret (ROk x) /\ finite x /\
    Rabs (value x - D * payoff (vo_type o) (value F) K) <= D * (value F + K) * (5 / 2 ^ 24) + / 2 ^ 118.
Proof.
  intros f_ln f_cdf eval coll borrow disc spot div vol o F GL GC M EF LF LK R P CC FV BV NE D K. subst eval.
  destruct (at_once f_ln f_cdf (vo_maturity o) coll borrow disc spot div vol o F GL GC (same_time _) EF LF LK R P CC FV BV) as (x & EX & A & _). destruct (A NE) as [A1 A2]. exists x. auto.
Qed.
(** REFUTED for a strike at the forward: there the price is not a number *)
Theorem c168_at_the_money_refuted : forall f_ln f_cdf eval coll borrow disc spot div vol o F, good_ln f_ln -> good_cdf f_cdf -> vo_maturity o = eval ->
  fair_forward eval coll borrow spot div eval = Ret (ROk F) -> level_ok F -> finite (vo_strike o) -> value (vo_strike o) = value F ->
  priced eval disc eval -> vo_ccy o = vo_und_ccy o -> finite vol -> 0 < value vol <= 16 ->
  exists x, option_npv f_ln f_cdf eval coll borrow disc spot div (constant_vol vol) None o = Ret (ROk x) /\ ~ finite x.
Proof.
  intros f_ln f_cdf eval coll borrow disc spot div vol o F GL GC M EF LF FK EK P CC FV BV. subst eval.
  assert (LK : level_ok (vo_strike o)) by (split; [exact FK|rewrite EK; exact (proj2 LF)]).
  assert (R : / 2 ^ 20 <= value (vo_strike o) / value F <= 2 ^ 20) by (rewrite EK; unfold Rdiv; rewrite Rinv_r by (destruct LF; lra); rewrite p20; lra).
  destruct (at_once f_ln f_cdf (vo_maturity o) coll borrow disc spot div vol o F GL GC (same_time _) EF LF LK R P CC FV BV) as (x & EX & _ & A). exists x. auto.
Qed.
(** an option that expired earlier in the year is an error *)
Theorem c168_past : forall f_ln f_cdf eval coll borrow disc spot div v q o y, odt_ok eval -> odt_ok (vo_maturity o) -> in_the_year y (od_day eval) -> in_the_year y (od_day (vo_maturity o)) ->
  od_off eval = od_off (vo_maturity o) -> (instant (vo_maturity o) + day_ns <= instant eval)%Z -> option_npv f_ln f_cdf eval coll borrow disc spot div v q o = Ret RErr.
Proof. intros. unfold option_npv. rewrite (c162_past eval coll borrow spot div (vo_maturity o) y) by assumption. reflexivity. Qed.
(** REFUTED for one that expired in an earlier year: it is worth what today's
    price would pay *)
Theorem c168_past_year_refuted : forall f_exp f_ln f_cdf eval coll borrow disc spot vol o y1 y2, good_exp f_exp -> good_ln f_ln -> good_cdf f_cdf -> reached f_exp coll -> reached f_exp borrow -> reached f_exp disc ->
  in_the_year y1 (od_day eval) -> in_the_year y2 (od_day (vo_maturity o)) -> (y2 < y1)%Z -> level_ok spot -> level_ok (vo_strike o) -> / 2 ^ 20 <= value (vo_strike o) / value spot <= 2 ^ 20 ->
  vo_ccy o = vo_und_ccy o -> finite vol -> 0 < value vol <= 16 -> value (vo_strike o) <> value spot -> let K := value (vo_strike o) in
  exists x, option_npv f_ln f_cdf eval coll borrow disc spot None (constant_vol vol) None o = Ret (ROk x) /\ finite x /\
    Rabs (value x - payoff (vo_type o) (value spot) K) <= (value spot + K) * (5 / 2 ^ 24) + / 2 ^ 118.
Proof.
  intros f_exp f_ln f_cdf eval coll borrow disc spot vol o y1 y2 GE GL GC HC HB HD Y1 Y2 L LS LK R CC FV BV NE K.
  destruct (c162_past_year_refuted f_exp eval coll borrow spot _ y1 y2 GE HC HB (proj1 LS) Y1 Y2 L) as (F & EF & FF & VF). destruct (c137_past_year_refuted f_exp eval disc _ y1 y2 GE HD Y1 Y2 L) as (D & ED & FD & VD).
  assert (P : priced eval disc (vo_maturity o)) by (exists D; split; [exact ED|]; split; [exact FD|]; rewrite VD, p20; lra).
  destruct (at_once f_ln f_cdf eval coll borrow disc spot None vol o F GL GC (c95_earlier_year_refuted _ _ _ _ Y1 Y2 L) EF) as (x & EX & A & _); try assumption.
  - split; [exact FF|rewrite VF; exact (proj2 LS)].
  - rewrite VF. exact R.
  - destruct A as [A1 A2]; [rewrite VF; exact NE|]. exists x. split; [exact EX|]. split; [exact A1|]. unfold factor_on in A2. rewrite ED, VD, VF, !Rmult_1_l in A2. exact A2.
Qed.
(** an option paid in another currency needs quanto data *)
Theorem c168_quanto_missing : forall f_ln f_cdf eval coll borrow disc spot div v o x, vo_ccy o <> vo_und_ccy o -> option_npv f_ln f_cdf eval coll borrow disc spot div v None o <> Ret (ROk x).
Proof. intros f_ln f_cdf eval coll borrow disc spot div v o x N E. apply npv_ok in E. destruct E as (F & t & var & dev & D & _ & _ & _ & _ & [C|C] & _); [apply N; exact C|apply C; reflexivity]. Qed.
(** with quanto data of volatility and correlation, the price is Black's with
    d1 lowered by vol * t * (quanto vol * correlation) / dev *)
Theorem c168_quanto_shift : forall f_ln f_cdf eval coll borrow disc spot div v qv rho o x,
  option_npv f_ln f_cdf eval coll borrow disc spot div v (Some (Quanto qv rho)) o = Ret (ROk x) ->
  exists F t var dev D, fair_forward eval coll borrow spot div (vo_maturity o) = Ret (ROk F) /\ get_time_difference eval (vo_maturity o) = Ret t /\
    let m := gdiv (vo_strike o) F in
    vol_var v t m = Ret (ROk var) /\ vol_dev v t m = Ret (ROk dev) /\ discount_at eval disc (vo_maturity o) = Ret (ROk D) /\
    let shift := gmul (gmul (vol_value v t m) t) (gmul (vol_value qv t m) rho) in
    let d1 := gdiv (gsub (gadd (gneg (f_ln m)) (gdiv var (gof_Z 2))) shift) dev in
    x = weigh (vo_type o) F (vo_strike o) (f_cdf d1) (f_cdf (gsub d1 dev)) D.
Proof.
  intros f_ln f_cdf eval coll borrow disc spot div v qv rho o x E. apply npv_ok in E. destruct E as (F & t & var & dev & D & A & B & C & G & _ & I & X).
  exists F, t, var, dev, D. split; [exact A|]. split; [exact B|]. split; [exact C|]. split; [exact G|]. split; [exact I|]. exact X.
Qed.
(** REFUTED: the quanto data do not move the forward that is paid: call less
    put is the same whatever they are *)
Theorem c168_quanto_refuted : forall f_ln f_cdf eval coll borrow disc spot div v q q' o F c p c' p', good_cdf f_cdf ->
  fair_forward eval coll borrow spot div (vo_maturity o) = Ret (ROk F) -> level_ok F -> level_ok (vo_strike o) -> priced eval disc (vo_maturity o) ->
  option_npv f_ln f_cdf eval coll borrow disc spot div v (Some q) (as_type Call o) = Ret (ROk c) -> option_npv f_ln f_cdf eval coll borrow disc spot div v (Some q) (as_type Put o) = Ret (ROk p) -> finite c ->
  option_npv f_ln f_cdf eval coll borrow disc spot div v (Some q') (as_type Call o) = Ret (ROk c') -> option_npv f_ln f_cdf eval coll borrow disc spot div v (Some q') (as_type Put o) = Ret (ROk p') -> finite c' ->
  let D := factor_on eval disc (vo_maturity o) in let K := value (vo_strike o) in
  Rabs ((value c - value p) - (value c' - value p')) <= D * (value F + K) * (20 / 2 ^ 24) + / 2 ^ 116.
Proof.
  intros f_ln f_cdf eval coll borrow disc spot div v q q' o F c p c' p' GC EF LF LK P EC EP FC EC' EP' FC' D K.
  destruct (c166_parity _ _ _ _ _ _ _ _ _ _ _ _ _ _ GC EF LF LK P EC EP FC) as (_ & A & _). destruct (c166_parity _ _ _ _ _ _ _ _ _ _ _ _ _ _ GC EF LF LK P EC' EP' FC') as (_ & B & _). fold D K in A, B.
  assert (P116 : / 2 ^ 116 = 2 * / 2 ^ 117) by (change (2 ^ 117) with (2 * 2 ^ 116); rewrite Rinv_mult; assert (0 < 2 ^ 116) by (apply pow_lt; lra); field; lra). rewrite P116. apply Rabs_le_inv in A. apply Rabs_le_inv in B. apply Rabs_le. rewrite p24' in *. set (e := D * (value F + K)) in *. lra.
Qed.
(** making an option: the pair is underlying against paying currency, if they
    differ *)
Theorem c168_new : forall strike notional maturity und ccy k, let o := vanilla_new strike notional maturity und ccy k in
  vo_strike o = strike /\ vo_notional o = notional /\ vo_maturity o = maturity /\ vo_und_ccy o = und /\ vo_ccy o = ccy /\ vo_type o = k /\
  (ccy = und -> vo_quanto_fx o = None) /\ (ccy <> und -> exists p, vo_quanto_fx o = Some p /\ fx_one p = und /\ fx_two p = ccy).
Proof.
  intros. unfold o, vanilla_new. cbn. repeat (split; [reflexivity|]). split; intro H.
  - apply c153_equal in H. rewrite H. reflexivity.
  - destruct (ccy_eqb ccy und) eqn:E; [apply c153_equal in E; contradiction|]. eexists. split; [reflexivity|]. split; reflexivity.
Qed.

(** ** Concrete cases *)
Definition an_cdf (x : f32) : f32 := match x with B754_nan => B754_nan | B754_infinity false => gof_Z 1 | B754_infinity true => gof_Z 0 | _ => to_f32 (Phi (value x)) end.
Lemma to_f32_unit : forall p, 0 < p < 1 -> finite (to_f32 p) /\ 0 <= value (to_f32 p) <= 1 /\ Rabs (value (to_f32 p) - p) <= / 2 ^ 22.
Proof.
  intros p P. assert (B1 : Rabs p <= bpow radix2 126) by (rewrite Rabs_pos_eq by lra; apply Rle_trans with (bpow radix2 0); [cbn; lra|apply bpow_le; lia]).
  destruct (to_f32_value p B1) as [F V]. split; [exact F|]. rewrite V. set (k := ZnearestE (p * bpow radix2 130)). set (q := IZR k * bpow radix2 (-130)).
  assert (PB : bpow radix2 130 * bpow radix2 (-130) = 1) by (rewrite <- bpow_plus; reflexivity). pose proof (bpow_gt_0 radix2 130) as G1. pose proof (bpow_gt_0 radix2 (-130)) as G2.
  pose proof (Znearest_half (fun z => negb (Z.even z)) (p * bpow radix2 130)) as N. fold k in N. apply Rabs_le_inv in N.
  assert (S1 : bpow radix2 (-130) <= / 2 ^ 30). { apply Rle_trans with (bpow radix2 (-30)); [apply bpow_le; lia|]. apply Req_le. rewrite pow_IZR. reflexivity. } rewrite p30 in S1.
  assert (Q : Rabs (q - p) <= / 1073741824).
  { unfold q. replace (IZR k * bpow radix2 (-130) - p) with ((IZR k - p * bpow radix2 130) * bpow radix2 (-130)) by (rewrite Rmult_minus_distr_r, (Rmult_assoc p), PB; ring). rewrite Rabs_mult, (Rabs_pos_eq (bpow radix2 (-130))) by lra.
    apply Rle_trans with (1 * / 1073741824); [|lra]. apply Rmult_le_compat; [apply Rabs_pos|lra|apply Rabs_le; lra|exact S1]. }
  assert (K0 : (0 <= k)%Z). { apply le_IZR. apply Rnot_lt_le. intro L. assert (k <= -1)%Z by (assert (k < 0)%Z by (apply lt_IZR; exact L); lia). assert (IZR k <= -1) by (apply IZR_le; assumption). assert (0 < p * bpow radix2 130) by (apply Rmult_lt_0_compat; lra). lra. }
  assert (K1 : IZR k <= bpow radix2 130). { apply Rnot_lt_le. intro L. assert (E : bpow radix2 130 = IZR (2 ^ 130)) by (rewrite <- (IZR_Zpower radix2 130) by lia; reflexivity). rewrite E in L. apply lt_IZR in L. assert (2 ^ 130 + 1 <= k)%Z by lia. apply IZR_le in H. rewrite plus_IZR, <- E in H. assert (p * bpow radix2 130 < 1 * bpow radix2 130) by (apply Rmult_lt_compat_r; lra). lra. }
  assert (Q0 : 0 <= q) by (unfold q; apply Rmult_le_pos; [apply IZR_le; exact K0|lra]). assert (Q1 : q <= 1) by (unfold q; rewrite <- PB; apply Rmult_le_compat_r; lra).
  destruct one_fn as [_ O1]. assert (R1 : rnd 24 128 1 = 1) by (rewrite <- O1; apply rnd_B2R).
  split; [split; [rewrite <- (rnd_0 24 128); apply rnd_le; [reflexivity|exact Q0]|rewrite <- R1; apply rnd_le; [reflexivity|exact Q1]]|].
  destruct (rnd_any q) as (d & t & D & T & E). rewrite E. replace (q * (1 + d) + t - p) with ((q - p) + q * d + t) by ring. pose proof (tiny118 4294967296 ltac:(lra)) as T2.
  assert (S2 : / 2 ^ 118 <= 1) by (rewrite <- Rinv_1; apply Rinv_le; [lra|]; apply pow_R1_Rle; lra).
  assert (QD : Rabs (q * d) <= 1 * e24) by (rewrite Rabs_mult; apply Rmult_le_compat; try apply Rabs_pos; [rewrite Rabs_pos_eq by lra; lra|exact D]).
  apply Rle_trans with (1 := Rabs_triang _ _). apply Rle_trans with (Rabs (q - p) + Rabs (q * d) + Rabs t); [apply Rplus_le_compat_r; apply Rabs_triang|]. unfold e24 in QD. assert (P22 : 2 ^ 22 = 4194304) by (rewrite pow_IZR; reflexivity). rewrite P22. lra.
Qed.
Lemma an_cdf_good : good_cdf an_cdf.
Proof.
  split; [|split; [exact one_fn|split; [exact zero_fn|reflexivity]]]. intros x F. pose proof (to_f32_unit (Phi (value x)) (Phi_range _)) as Q. destruct x as [s|s| |s m e h]; try discriminate F; exact Q.
Qed.
Definition ex_option (k : option_type) (strike : Z) (d : odt) : vanilla := vanilla_new (gof_Z strike) (gof_Z 1) d Ccy_KRW Ccy_KRW k.
Lemma level_small : forall n, (1 <= n <= 100)%Z -> level_ok (gof_Z n) /\ value (gof_Z n) = IZR n.
Proof.
  intros n B. destruct (small_fin n ltac:(lia)) as [F V]. unfold real_of in V. fold (value (gof_Z n)) in V. split; [|exact V]. split; [exact F|]. rewrite V, p30. assert (1 <= IZR n <= 100) by (split; apply IZR_le; lia). lra.
Qed.
Definition ex_time_ok : bool := match get_time_difference ex_eval ex_maturity with Ret t => is_finite t && gle (gof_Z 1) t && gle t (gof_Z 2) | _ => false end.
(** an option at 90 on a price of 100, for a year, at a volatility of 1/8 *)
Example c167_hypotheses_met : exists f_exp c F t, good_exp f_exp /\ reached f_exp c /\ good_ln an_ln /\ good_cdf an_cdf /\ fair_forward ex_eval c c (gof_Z 100) None ex_maturity = Ret (ROk F) /\ level_ok F /\ level_ok (gof_Z 90) /\
  / 2 ^ 20 <= value (gof_Z 90) / value F <= 2 ^ 20 /\ priced ex_eval c ex_maturity /\ finite eighth /\ / 2 ^ 10 <= value eighth <= 16 /\ get_time_difference ex_eval ex_maturity = Ret t /\ finite t /\ / 2 ^ 20 <= value t <= 128 /\
  exists x, option_npv an_ln an_cdf ex_eval c c c (gof_Z 100) None (constant_vol eighth) None (ex_option Call 90 ex_maturity) = Ret (ROk x) /\ finite x.
Proof.
  destruct c162_hypotheses_met as (f_exp & c & F & GE & H & _ & P & EF & FF & BF). apply Rabs_le_inv in BF.
  assert (T : ex_time_ok = true) by (vm_compute; reflexivity). unfold ex_time_ok in T. destruct (get_time_difference ex_eval ex_maturity) as [t| |] eqn:ET; try discriminate T. apply andb_true_iff in T. destruct T as [T T2]. apply andb_true_iff in T. destruct T as [FT T1].
  destruct (small_fin 2 ltac:(lia)) as [F2 V2]. unfold real_of in V2.
  apply (proj1 (fin_le 24 128 _ _ _ _ one_fn (conj FT eq_refl))) in T1. apply (proj1 (fin_le 24 128 _ _ _ _ (conj FT eq_refl) (conj F2 eq_refl))) in T2. rewrite V2 in T2. fold (value t) in T1, T2.
  destruct (level_small 90 ltac:(lia)) as [L90 V90]. assert (LF : level_ok F) by (split; [exact FF|rewrite p30; lra]).
  assert (R : / 2 ^ 20 <= value (gof_Z 90) / value F <= 2 ^ 20). { rewrite V90, p20. assert (I : / 101 <= / value F <= / 99) by (split; apply Rinv_le; lra). unfold Rdiv. lra. }
  assert (FE : finite eighth) by reflexivity. assert (BE : / 2 ^ 10 <= value eighth <= 16) by (destruct eighth_value as (_ & E8 & _); rewrite E8, p10; lra).
  assert (BT : / 2 ^ 20 <= value t <= 128) by (rewrite p20; lra).
  exists f_exp, c, F, t. repeat (split; [assumption || exact an_ln_good || exact an_cdf_good || reflexivity|]).
  destruct (c167_value an_ln an_cdf ex_eval c c c (gof_Z 100) None eighth (ex_option Call 90 ex_maturity) F t an_ln_good an_cdf_good EF LF L90 R P eq_refl FE BE ET FT BT) as (x & EX & FX & _). exists x. auto.
Qed.
Example c166_hypotheses_met : exists f_exp c F x y, good_exp f_exp /\ reached f_exp c /\ good_cdf an_cdf /\ fair_forward ex_eval c c (gof_Z 100) None ex_maturity = Ret (ROk F) /\ level_ok F /\ level_ok (gof_Z 90) /\ priced ex_eval c ex_maturity /\
  option_npv an_ln an_cdf ex_eval c c c (gof_Z 100) None (constant_vol eighth) None (as_type Call (ex_option Call 90 ex_maturity)) = Ret (ROk x) /\ finite x /\
  option_npv an_ln an_cdf ex_eval c c c (gof_Z 100) None (constant_vol eighth) None (as_type Put (ex_option Call 90 ex_maturity)) = Ret (ROk y).
Proof.
  destruct c167_hypotheses_met as (f_exp & c & F & t & GE & H & GL & GC & EF & LF & LK & R & P & FV & BV & T & FT & BT & x & EX & FX).
  destruct (c167_value an_ln an_cdf ex_eval c c c (gof_Z 100) None eighth (ex_option Put 90 ex_maturity) F t GL GC EF LF LK R P eq_refl FV BV T FT BT) as (y & EY & FY & _).
  exists f_exp, c, F, x, y. repeat (split; [assumption|]). exact EY.
Qed.
(** the same options on their last day, at 90 and at 100 *)
Example c168_hypotheses_met : exists f_exp c F, good_exp f_exp /\ reached f_exp c /\ fair_forward ex_eval c c (gof_Z 100) None ex_eval = Ret (ROk F) /\ level_ok F /\ level_ok (gof_Z 90) /\ / 2 ^ 20 <= value (gof_Z 90) / value F <= 2 ^ 20 /\
  priced ex_eval c ex_eval /\ finite eighth /\ 0 < value eighth <= 16 /\ value (gof_Z 90) <> value F /\ value (gof_Z 100) = value F /\
  (exists x, option_npv an_ln an_cdf ex_eval c c c (gof_Z 100) None (constant_vol eighth) None (ex_option Call 90 ex_eval) = Ret (ROk x) /\ 9.9 <= value x <= 10.1) /\
  (exists x, option_npv an_ln an_cdf ex_eval c c c (gof_Z 100) None (constant_vol eighth) None (ex_option Call 100 ex_eval) = Ret (ROk x) /\ ~ finite x).
Proof.
  destruct ex_priced as (f_exp & c & GE & H & _). destruct one_fn as [F1 V1]. destruct (level_small 100 ltac:(lia)) as [L100 V100]. destruct (level_small 90 ltac:(lia)) as [L90 V90].
  destruct (c162_today f_exp ex_eval c c (gof_Z 100) None (gof_Z 1) GE H H (proj1 L100) (c124_none _) F1 V1) as (F & EF & FF & VF). destruct (c134_today f_exp ex_eval c GE H) as (D & ED & FD & VD).
  assert (P : priced ex_eval c ex_eval) by (exists D; split; [exact ED|]; split; [exact FD|]; rewrite VD, p20; lra). rewrite V100 in VF. assert (LF : level_ok F) by (split; [exact FF|rewrite VF, p30; lra]).
  assert (R : / 2 ^ 20 <= value (gof_Z 90) / value F <= 2 ^ 20) by (rewrite V90, VF, p20; lra). assert (BE : 0 < value eighth <= 16) by (destruct eighth_value as (_ & E8 & _); rewrite E8; lra). assert (NE : value (gof_Z 90) <> value F) by (rewrite V90, VF; lra). assert (EQ : value (gof_Z 100) = value F) by (rewrite V100, VF; reflexivity).
  exists f_exp, c, F. repeat (split; [assumption || reflexivity|]). split.
  - destruct (c168_expiry an_ln an_cdf ex_eval c c c (gof_Z 100) None eighth (ex_option Call 90 ex_eval) F an_ln_good an_cdf_good eq_refl EF LF L90 R P eq_refl eq_refl BE NE) as (x & EX & FX & A). exists x. split; [exact EX|].
    unfold factor_on in A. rewrite ED, VD, VF in A. change (vo_strike (ex_option Call 90 ex_eval)) with (gof_Z 90 : f32) in A. rewrite V90 in A. cbn [ex_option vanilla_new vo_type payoff] in A. rewrite Rmax_left in A by lra. rewrite p24' in A.
    assert (/ 2 ^ 118 <= / 2 ^ 20) by (apply Rinv_le; [apply pow_lt; lra|apply Rle_pow; [lra|lia]]). rewrite p20 in H0. apply Rabs_le_inv in A. lra.
  - exact (c168_at_the_money_refuted an_ln an_cdf ex_eval c c c (gof_Z 100) None eighth (ex_option Call 100 ex_eval) F an_ln_good an_cdf_good eq_refl EF LF (proj1 L100) EQ P eq_refl eq_refl BE).
Qed.
Print Assumptions c166_errors.
Print Assumptions c166_parity.
Print Assumptions c167_value.
Print Assumptions c167_bounds.
Print Assumptions c167_vega.
Print Assumptions c167_expected.
Print Assumptions c168_expiry.
Print Assumptions c168_at_the_money_refuted.
Print Assumptions c168_past.
Print Assumptions c168_past_year_refuted.
Print Assumptions c168_quanto_missing.
Print Assumptions c168_quanto_shift.
Print Assumptions c168_quanto_refuted.
Print Assumptions c168_new.
