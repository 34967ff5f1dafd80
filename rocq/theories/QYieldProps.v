(** QYieldProps.v -- C150 to C152: prices from yields, and the Korean treasury bond future. *)
From Coq Require Import ZArith List Permutation Reals Lra Lia Bool.
From Flocq Require Import Core IEEE754.BinarySingleNaN.
From Verif Require Import Base CivilSpec FloatModel FloatFacts KrxModel QDateModel QCalModel QPeriodModel QPeriodSpec QYearModel QSchedModel QSchedSpec QInterpModel QInterpSpec QCurveModel QCurveSpec QCurveFacts QFloatErr QLinProps QRollProofs QCurveProps QBondModel QBondSpec QBondProofs QBondPriceProps QYieldProofs.
Import ListNotations.
Open Scope R_scope.

(** ** C150: the virtual bond of the future *)
Lemma p40 : 2 ^ 40 = 1099511627776. Proof. rewrite pow_IZR. reflexivity. Qed.
Lemma p41 : 2 ^ 41 = 2199023255552. Proof. rewrite pow_IZR. reflexivity. Qed.
Lemma p24' : 2 ^ 24 = 16777216. Proof. rewrite pow_IZR. reflexivity. Qed.
Lemma lo_hi : lo = / 1267650600228229401496703205376 /\ hi = 1267650600228229401496703205376.
Proof. unfold lo, hi. change (-100)%Z with (Z.opp 100). rewrite bpow_opp. change (bpow radix2 100) with (IZR (Z.pow_pos 2 100)). auto. Qed.
Lemma annuity_range : forall c b n, 0 < b -> 0 <= c <= 1 -> / 2 ^ 40 <= b ^ n <= 2 ^ 40 -> 0 <= annuity c b n <= INR n * 2 ^ 40.
Proof.
  intros c b n Pb C R. rewrite p40 in *. assert (H : forall k, (k <= n)%nat -> 0 <= annuity c b k <= INR k * 1099511627776).
  { induction k as [|k IH]; intro L; [cbn; lra|]. specialize (IH ltac:(lia)). rewrite S_INR. cbn [annuity]. pose proof (pow_between b (S k) n Pb L (/ 1099511627776) 1099511627776 ltac:(lra) ltac:(lra) R) as Q.
    set (p := b ^ S k) in *. clearbody p. assert (I : 0 <= / p <= 1099511627776). { split; [left; apply Rinv_0_lt_compat; lra|]. replace 1099511627776 with (/ / 1099511627776) by field. apply Rinv_le; lra. }
    unfold Rdiv. assert (0 <= c * / p <= 1 * 1099511627776) by (split; [apply Rmult_le_pos; lra|apply Rmult_le_compat; lra]). lra. }
  apply H. lia.
Qed.
Lemma annuity_zero : forall b n, annuity 0 b n = 0.
Proof. intros b n. induction n as [|n IH]; [reflexivity|]. cbn [annuity]. rewrite IH. unfold Rdiv. ring. Qed.
Lemma annuity_least : forall c b n i, 0 < b -> 0 <= c <= 1 -> / 2 ^ 40 <= b ^ n <= 2 ^ 40 -> (1 <= i <= n)%nat -> / 2 ^ 40 <= c -> / 2 ^ 80 <= annuity c b i.
Proof.
  intros c b n i Pb C R L G. destruct i as [|i]; [lia|]. cbn [annuity]. assert (P80 : 2 ^ 80 = 2 ^ 40 * 2 ^ 40) by (rewrite <- pow_add; reflexivity). rewrite P80. rewrite p40 in *.
  pose proof (pow_between b (S i) n Pb (proj2 L) (/ 1099511627776) 1099511627776 ltac:(lra) ltac:(lra) R) as Q.
  assert (Ri : / 2 ^ 40 <= b ^ i <= 2 ^ 40) by (rewrite p40; apply (pow_between b i n Pb ltac:(lia) (/ 1099511627776) 1099511627776); lra).
  pose proof (annuity_range c b i Pb C Ri) as [A _]. set (p := b ^ S i) in *. clearbody p.
  assert (I : / 1099511627776 <= / p) by (apply Rinv_le; lra). assert (/ 1099511627776 * / 1099511627776 <= c * / p) by (apply Rmult_le_compat; lra). unfold Rdiv. lra.
Qed.
Section Virtual.
Context (f_powi : f32 -> Z -> f32) (GP : good_powi f_powi).
Lemma powi_band : forall x b t i, fn x (b * t) -> band 3 t -> / 2 <= b <= 3 / 2 -> / 2 ^ 40 <= b ^ i <= 2 ^ 40 -> (Z.of_nat i <= 65536)%Z -> exists u, fn (f_powi x (Z.of_nat i)) (b ^ i * u) /\ band (5 * i) u.
Proof using GP.
  intros x b t i [Fx Vx] B Hb R N. pose proof (band_range 3 t ltac:(lia) B) as T3. pose proof (band_pow 3 t i B) as BI. pose proof (band_range (3 * i) _ ltac:(lia) BI) as TI.
  assert (T3' : 0.99 <= t <= 1.01). { pose proof (band_linear 3 t ltac:(lia) B) as L. apply Rabs_le_inv in L. change (INR 3) with (1 + 1 + 1) in L. unfold e24 in L. lra. }
  assert (P : 0 < b ^ i) by (apply pow_lt; lra). assert (V : value x = b * t) by exact Vx. assert (VI : value x ^ i = b ^ i * t ^ i) by (rewrite V; apply Rpow_mult_distr).
  rewrite p40 in R. assert (X : / 2199023255552 <= b ^ i * t ^ i <= 2199023255552).
  { split; [apply Rle_trans with (/ 1099511627776 * (2 / 3)); [lra|]|apply Rle_trans with (1099511627776 * (4 / 3)); [|lra]]; apply Rmult_le_compat; lra. }
  destruct (GP x i Fx) as [Fp Q]; [rewrite V; split; [apply Rle_trans with (/ 2 * 0.99); [lra|apply Rmult_le_compat; lra]|apply Rle_trans with (3 / 2 * 1.01); [apply Rmult_le_compat; lra|lra]]|rewrite VI, p41; exact X|exact N|].
  rewrite VI in Q. set (w := f_powi x (Z.of_nat i)) in *. set (z := b ^ i * t ^ i) in *. assert (Z0 : 0 < z) by lra.
  exists (t ^ i * (1 + (value w - z) / z)). split.
  - split; [exact Fp|]. fold (value w). unfold z. field. split; lra.
  - replace (5 * i)%nat with (3 * i + 2 * i)%nat by lia. apply band_prod; [exact BI|]. apply band_lin. unfold Rdiv. rewrite Rabs_mult. rewrite (Rabs_pos_eq (/ z)) by (left; apply Rinv_0_lt_compat; exact Z0).
    apply Rmult_le_reg_r with z; [exact Z0|]. rewrite Rmult_assoc, Rinv_l, Rmult_1_r by lra. apply Rle_trans with (1 := Q). rewrite p24', mult_INR. change (INR 2) with 2. unfold e24. right. field.
Qed.
Lemma coupon_sum_band : forall c' b t c n fy s1, fn (gadd (gof_Z 1) fy) (b * t) -> band 3 t -> / 2 <= b <= 3 / 2 -> / 2 ^ 40 <= b ^ n <= 2 ^ 40 -> (Z.of_nat n <= 65536)%Z -> fn c' (c * s1) -> band 1 s1 -> (c = 0 \/ / 2 ^ 40 <= c <= 1) ->
  forall k j res u, (j + k = n)%nat -> fn res (annuity c b j * u) -> band (10 * n + 2 + j) u ->
  exists u', fn (coupon_sum f_powi k (Z.of_nat (S j)) c' fy res) (annuity c b n * u') /\ band (10 * n + 2 + n) u'.
Proof using GP.
  intros c' b t c n fy s1 FB BT Hb R N Fc B1 HC. assert (C01 : 0 <= c <= 1) by (rewrite p40 in HC; lra). assert (Pb : 0 < b) by lra. destruct lo_hi as [LO HI].
  induction k as [|k IH]; intros j res u E Fr BR; cbn [coupon_sum].
  - replace j with n in * by lia. exists u. auto.
  - replace (Z.of_nat (S j) + 1)%Z with (Z.of_nat (S (S j))) by lia.
    assert (RI : / 2 ^ 40 <= b ^ S j <= 2 ^ 40) by (rewrite p40 in *; apply (pow_between b (S j) n Pb ltac:(lia)); lra).
    assert (RJ : / 2 ^ 40 <= b ^ j <= 2 ^ 40) by (rewrite p40 in *; apply (pow_between b j n Pb ltac:(lia)); lra).
    destruct (powi_band _ b t (S j) FB BT Hb RI ltac:(lia)) as (p & Fp & Bp). assert (PP : 0 < b ^ S j) by (apply pow_lt; exact Pb).
    assert (Q1 : c / b ^ S j = 0 \/ / 2 ^ 80 <= c / b ^ S j <= 2 ^ 40).
    { destruct HC as [-> | HC]; [left; unfold Rdiv; ring|right]. assert (P80 : 2 ^ 80 = 2 ^ 40 * 2 ^ 40) by (rewrite <- pow_add; reflexivity). rewrite P80. rewrite p40 in *. unfold Rdiv.
      assert (I : / 1099511627776 <= / b ^ S j <= 1099511627776). { split; [apply Rinv_le; lra|]. replace 1099511627776 with (/ / 1099511627776) by field. apply Rinv_le; lra. }
      split; [apply Rle_trans with (/ 1099511627776 * / 1099511627776); [lra|]|apply Rle_trans with (1 * 1099511627776); [|lra]]; apply Rmult_le_compat; lra. }
    assert (P80 : 2 ^ 80 = 1208925819614629174706176) by (rewrite pow_IZR; reflexivity).
    assert (R1 : reach (c / b ^ S j)). { destruct Q1 as [Q1|Q1]; [left; exact Q1|right]. rewrite P80, p40 in Q1. rewrite LO, HI. lra. }
    destruct (div_band _ _ c (b ^ S j) s1 p 1 (5 * S j) Fc Fp B1 Bp PP R1 ltac:(lia)) as (q & Fq & Bq).
    assert (Q0 : 0 <= c / b ^ S j). { unfold Rdiv. apply Rmult_le_pos; [lra|]. left. apply Rinv_0_lt_compat. exact PP. }
    destruct (annuity_range c b j Pb C01 RJ) as [A0 A1].
    assert (R2 : reach (annuity c b j + c / b ^ S j)).
    { change (annuity c b j + c / b ^ S j) with (annuity c b (S j)). destruct HC as [-> | HC]; [left; apply annuity_zero|right].
      pose proof (annuity_least c b n (S j) Pb C01 R ltac:(lia) (proj1 HC)) as L1. destruct (annuity_range c b (S j) Pb C01 RI) as [_ L2]. assert (IN : INR (S j) <= 65536) by (rewrite INR_IZR_INZ; apply IZR_le; lia). rewrite P80 in L1. rewrite p40 in L2. rewrite LO, HI. lra. }
    assert (Bq' : band (10 * n + 2 + j) q) by (apply band_le with (2 := Bq); lia).
    destruct (add_band _ _ _ _ u q (10 * n + 2 + j) Fr Fq A0 Q0 BR Bq' R2 ltac:(lia)) as (r & F2 & B2).
    apply (IH (S j) _ r ltac:(lia)); [exact F2|]. replace (10 * n + 2 + S j)%nat with (S (10 * n + 2 + j)) by lia. exact B2.
Qed.
Lemma freq_pos : forall f, f <> NoFrequency -> fn (as_real f) (IZR (freq_number f)) /\ (1 <= freq_number f <= 252)%Z.
Proof. intros f H. assert (B : (1 <= freq_number f <= 252)%Z) by (destruct f; cbn; try lia; contradiction). split; [|exact B]. unfold as_real. destruct (small_fin (freq_number f) ltac:(lia)) as [F R]. split; [exact F|exact R]. Qed.
Theorem c150_price : forall m v bond_yield n, (Z.of_nat n = vb_year v * freq_number (vb_freq v))%Z -> (1 <= n)%nat -> (Z.of_nat n <= 65536)%Z ->
  let f := IZR (freq_number (vb_freq v)) in let b := 1 + value bond_yield / f in let c := value (vb_coupon v) / f in let price := value (vb_notional v) * annuity_bond c b n in
  finite bond_yield -> Rabs (value bond_yield / f) <= / 2 -> / 2 ^ 40 <= b ^ n <= 2 ^ 40 -> finite (vb_coupon v) -> c = 0 \/ / 2 ^ 40 <= c <= 1 -> finite (vb_notional v) -> 1 <= value (vb_notional v) <= 2 ^ 40 ->
  exists x, virtual_npv f_powi m v bond_yield = Ret x /\ finite x /\ Rabs (value x - price) <= price * ((15 * INR n + 6) / 2 ^ 24).
Proof using GP.
  intros m v y n E N1 N f b c price Fy Y R Fc HC FN BN. assert (NF : vb_freq v <> NoFrequency) by (intro Q; rewrite Q in E; cbn in E; lia).
  destruct (freq_pos _ NF) as [FF BF]. fold f in FF. assert (F1 : 1 <= f <= 252) by (split; apply IZR_le; lia). destruct lo_hi as [LO HI].
  assert (Hb : / 2 <= b <= 3 / 2) by (apply Rabs_le_inv in Y; unfold b; lra). assert (Pb : 0 < b) by lra. assert (C01 : 0 <= c <= 1) by (rewrite p40 in HC; lra).
  (* the rate per period *)
  destruct (div_err y (as_real (vb_freq v)) _ _ (conj Fy eq_refl) FF ltac:(lra)) as (w & d & t & Fw & D & T & W). { fold (value y). apply two100_127. unfold two100. lra. } fold (value y) in W.
  destruct (one_plus _ w (value y / f) Fw Y) as (tb & FB & BB).
  { rewrite W. replace (value y / f * (1 + d) + t - value y / f) with (value y / f * d + t) by ring. apply Rle_trans with (1 := Rabs_triang _ _). apply Rplus_le_compat; [|exact T]. rewrite Rabs_mult. apply Rmult_le_compat_l; [apply Rabs_pos|]. unfold e24 in *. lra. }
  fold b in FB.
  (* the coupon *)
  assert (FN1 : fn (vb_coupon v) (value (vb_coupon v) * 1)) by (rewrite Rmult_1_r; split; [exact Fc|reflexivity]). assert (FF1 : fn (as_real (vb_freq v)) (f * 1)) by (rewrite Rmult_1_r; exact FF).
  assert (RC : reach c) by (destruct HC as [HC|HC]; [left; exact HC|right; rewrite p40 in HC; rewrite LO, HI; lra]).
  destruct (div_band _ _ _ _ 1 1 0 0 FN1 FF1 (band_one 0) (band_one 0) ltac:(lra) RC ltac:(lia)) as (tc & FC & BC). fold c in FC.
  assert (F0 : fn (gof_Z 0) (annuity c b 0 * 1)) by (cbn [annuity]; rewrite Rmult_0_l; exact zero_fn).
  destruct (coupon_sum_band _ b tb c n _ tc FB BB Hb R N FC BC HC n 0%nat (gof_Z 0) 1 ltac:(lia) F0 (band_one _)) as (us & FS & BS).
  destruct (powi_band _ b tb n FB BB Hb R N) as (up & Fp & Bp). assert (PP : 0 < b ^ n) by (apply pow_lt; exact Pb).
  rewrite p40 in R. assert (I : / 1099511627776 <= / b ^ n <= 1099511627776). { split; [apply Rinv_le; lra|]. replace 1099511627776 with (/ / 1099511627776) by field. apply Rinv_le; lra. }
  assert (O1 : fn (gof_Z 1) (1 * 1)) by (rewrite Rmult_1_r; exact one_fn).
  destruct (div_band _ _ 1 (b ^ n) 1 up 0 (5 * n) O1 Fp (band_one 0) Bp PP) as (ud & Fd & Bd). { right. rewrite LO, HI. unfold Rdiv. lra. } { lia. }
  assert (R' : / 2 ^ 40 <= b ^ n <= 2 ^ 40) by (rewrite p40; exact R). destruct (annuity_range c b n Pb C01 R') as [A0 A1]. rewrite p40 in A1. assert (IN : INR n <= 65536) by (rewrite INR_IZR_INZ; apply IZR_le; lia). assert (IN1 : 1 <= INR n) by (change 1 with (INR 1); apply le_INR; exact N1).
  assert (AB : / 1099511627776 <= annuity c b n + 1 / b ^ n <= 65537 * 1099511627776) by (unfold Rdiv; lra).
  assert (Bd' : band (10 * n + 2 + n) ud) by (apply band_le with (2 := Bd); lia). assert (D0 : 0 <= 1 / b ^ n) by (unfold Rdiv; lra).
  destruct (add_band _ _ _ _ us ud (10 * n + 2 + n) FS Fd A0 D0 BS Bd') as (ua & Fa & Ba). { right. rewrite LO, HI. lra. } { lia. }
  assert (NN : fn (vb_notional v) (value (vb_notional v) * 1)) by (rewrite Rmult_1_r; split; [exact FN|reflexivity]). rewrite p40 in BN.
  assert (PB : / 1099511627776 * 1 <= (annuity c b n + 1 / b ^ n) * value (vb_notional v) <= 65537 * 1099511627776 * 1099511627776) by (split; apply Rmult_le_compat; lra).
  destruct (mul_band _ _ _ _ ua 1 (S (10 * n + 2 + n)) 0 Fa NN Ba (band_one 0)) as (ux & Fx & Bx). { right. rewrite LO, HI. lra. } { lia. }
  assert (EP : (annuity c b n + 1 / b ^ n) * value (vb_notional v) = price) by (unfold price, annuity_bond, Rdiv; ring). rewrite EP in Fx.
  eexists. split; [|destruct (band_value _ _ _ _ Fx Bx ltac:(lia)) as [X1 X2]; split; [exact X1|]].
  - unfold virtual_npv. rewrite <- E. replace ((-2147483648 <=? Z.of_nat n)%Z && (Z.of_nat n <=? 2147483647)%Z) with true by (symmetry; apply andb_true_iff; split; apply Z.leb_le; lia). cbn [obind]. rewrite Nat2Z.id. reflexivity.
  - apply Rle_trans with (1 := X2). rewrite Rabs_pos_eq by (rewrite <- EP; lra). apply Rmult_le_compat_l; [rewrite <- EP; lra|]. rewrite p24'.
    replace (S (S (10 * n + 2 + n) + 0))%nat with (11 * n + 4)%nat by lia. rewrite plus_INR, mult_INR. replace (INR 11) with 11 by (cbn; lra). replace (INR 4) with 4 by (cbn; lra). lra.
Qed.
End Virtual.

(** ** Powers and sums of the yield pricer *)
Section Sums.
Context (f_powf : f32 -> f32 -> f32) (GP : good_powf f_powf).
Lemma yield_disc : forall base b t (t0 : f32) fr f e K, fn base (b * t) -> band 3 t -> / 2 <= b <= 3 / 2 -> finite t0 -> (value t0 = 0 \/ / 2 ^ 20 <= value t0) -> fn fr f -> 1 <= f <= 252 -> e = value t0 * f -> e <= INR K -> (Z.of_nat K <= 4096)%Z ->
  / 2 ^ 40 <= Rpower b e <= 2 ^ 40 -> exists u, fn (gdiv (gof_Z 1) (f_powf base (gmul t0 fr))) (/ Rpower b e * u) /\ band (69 + 10 * K) u.
Proof using GP.
  intros base b t t0 fr f e K Fb B Hb F0 T0 Ff Hf Ee EK HK R. destruct lo_hi as [LO HI]. assert (KR : INR K <= 4096) by (rewrite INR_IZR_INZ; apply IZR_le; exact HK).
  assert (P20 : 2 ^ 20 = 1048576) by (rewrite pow_IZR; reflexivity). rewrite P20 in T0. rewrite p40 in R.
  assert (E0 : 0 <= e) by (rewrite Ee; apply Rmult_le_pos; lra).
  assert (RE : reach (value t0 * f)). { rewrite <- Ee. destruct T0 as [T0|T0]; [left; rewrite Ee, T0; ring|right]. rewrite LO, HI. assert (/ 1048576 * 1 <= e) by (rewrite Ee; apply Rmult_le_compat; lra). lra. }
  assert (F01 : fn t0 (value t0 * 1)) by (rewrite Rmult_1_r; split; [exact F0|reflexivity]). assert (Ff1 : fn fr (f * 1)) by (rewrite Rmult_1_r; exact Ff).
  destruct (mul_band _ _ _ _ 1 1 0 0 F01 Ff1 (band_one 0) (band_one 0) RE ltac:(lia)) as (ue & Fe & Be). rewrite <- Ee in Fe. cbn [Nat.add] in Be.
  assert (De : Rabs (ue - 1) <= e24) by (unfold band in Be; cbn [pow] in Be; lra).
  destruct (power_band b e t (ue - 1) K Hb (conj E0 EK) HK) as (u & PU & BU); [rewrite p40; exact R|exact B|exact De|]. replace (1 + (ue - 1)) with ue in PU by ring.
  assert (KN : (Z.of_nat (30 + 5 * K) <= 4194304)%Z) by lia. pose proof (band_range _ _ KN BU) as U23.
  assert (T3 : 0.99 <= t <= 1.01). { pose proof (band_linear 3 t ltac:(lia) B) as L. apply Rabs_le_inv in L. replace (INR 3) with 3 in L by (cbn; lra). unfold e24 in L. lra. }
  set (P := Rpower b e) in *. assert (X : / 2199023255552 <= P * u <= 2199023255552).
  { split; [apply Rle_trans with (/ 1099511627776 * (2 / 3)); [lra|]|apply Rle_trans with (1099511627776 * (4 / 3)); [|lra]]; apply Rmult_le_compat; lra. }
  destruct Fb as [Fb Vb]. destruct Fe as [Fe Ve]. fold (value base) in Vb. fold (value (gmul t0 fr)) in Ve.
  assert (UE : 0.99 <= ue <= 1.01) by (apply Rabs_le_inv in De; unfold e24 in De; lra).
  destruct (proj2 GP base (gmul t0 fr) Fb Fe) as [Fp Q].
  { rewrite Vb. split; [apply Rle_trans with (/ 2 * 0.99); [lra|apply Rmult_le_compat; lra]|apply Rle_trans with (3 / 2 * 1.01); [apply Rmult_le_compat; lra|lra]]. }
  { rewrite Ve. split; [apply Rmult_le_pos; lra|apply Rle_trans with (4096 * 1.01); [apply Rmult_le_compat; lra|lra]]. }
  { rewrite Vb, Ve, PU, p41. exact X. }
  rewrite Vb, Ve, PU in Q. set (w := f_powf base (gmul t0 fr)) in *. set (z := P * u) in *. assert (Z0 : 0 < z) by lra.
  assert (FW : fn w (P * (u * (1 + (value w - z) / z)))) by (split; [exact Fp|]; fold (value w); unfold z; field; split; lra).
  assert (BW : band (34 + 5 * K) (u * (1 + (value w - z) / z))).
  { replace (34 + 5 * K)%nat with (30 + 5 * K + 4)%nat by lia. apply band_prod; [exact BU|]. apply band_lin. unfold Rdiv. rewrite Rabs_mult. rewrite (Rabs_pos_eq (/ z)) by (left; apply Rinv_0_lt_compat; exact Z0).
    apply Rmult_le_reg_r with z; [exact Z0|]. rewrite Rmult_assoc, Rinv_l, Rmult_1_r by lra. apply Rle_trans with (1 := Q). rewrite p24'. replace (INR 4) with 4 by (cbn; lra). unfold e24. right. field. }
  assert (O1 : fn (gof_Z 1) (1 * 1)) by (rewrite Rmult_1_r; exact one_fn). assert (PP : 0 < P) by lra.
  assert (I : / 1099511627776 <= / P <= 1099511627776). { split; [apply Rinv_le; lra|]. replace 1099511627776 with (/ / 1099511627776) by field. apply Rinv_le; lra. }
  destruct (div_band _ _ 1 P 1 _ 0 (34 + 5 * K) O1 FW (band_one 0) BW PP) as (ud & Fd & Bd). { right. rewrite LO, HI. unfold Rdiv. lra. } { lia. }
  exists ud. split; [replace (/ P) with (1 / P) by (unfold Rdiv; ring); exact Fd|]. replace (69 + 10 * K)%nat with (S (0 + 2 * (34 + 5 * K))) by lia. exact Bd.
Qed.
Lemma yield_sum_err : forall a fq pricing first fy b t K f l s v A B k, fn (gadd (gof_Z 1) fy) (b * t) -> band 3 t -> / 2 <= b <= 3 / 2 -> fn (as_real fq) f -> f = IZR (freq_number fq) -> 1 <= f <= 252 -> (Z.of_nat K <= 4096)%Z ->
  Forall (good_yield_flow a fq pricing first b K) l -> fn s v -> Rabs A <= B -> B <= INR k * 2 ^ 71 -> (Z.of_nat (k + length (future pricing l)) <= 1048576)%Z ->
  let delta := (94 + 14 * INR K) * e24 in Rabs (v - A) <= (2 * INR k * e24 + 2 * delta) * B + INR k * (2 * tiny) ->
  let n := INR (k + length (future pricing l)) in let F := yield_factor a fq first b in
  exists s' v', yield_sum f_powf l a pricing first fy (as_real fq) s = Ret (ROk s') /\ fn s' v' /\
    Rabs (v' - (A + present_value F (future pricing l))) <= (2 * n * e24 + 2 * delta) * (B + present_size F (future pricing l)) + n * (2 * tiny) /\
    0 <= present_size F (future pricing l) /\ B + present_size F (future pricing l) <= n * 2 ^ 71 /\ Rabs (A + present_value F (future pricing l)) <= B + present_size F (future pricing l).
Proof using GP.
  intros a fq pricing first fy b t K f l. induction l as [|[d x] l IH]; intros s v A B k Fb BT Hb Ff Ef Hf HK G Fs HA HB KK delta V; cbn zeta.
  - exists s, v. split; [reflexivity|]. split; [exact Fs|]. cbn [future filter present_value present_size sum_over fold_right length]. rewrite Nat.add_0_r, !Rplus_0_r. auto using Rle_refl.
  - inversion G as [|? ? G1 G2]; subst. destruct G1 as (Fx & Bx & GD). cbn [fst snd] in *. cbn [yield_sum]. unfold future in *. cbn [filter fst] in KK |- *.
    assert (KR4 : INR K <= 4096) by (rewrite INR_IZR_INZ; apply IZR_le; exact HK). pose proof (pos_INR K) as K0.
    destruct (Z.ltb_spec (od_day pricing) (od_day d)) as [L|L]; [|rewrite (proj2 (Z.leb_le _ _) L); exact (IH s v A B k Fb BT Hb Ff eq_refl Hf HK G2 Fs HA HB KK V)].
    rewrite (proj2 (Z.leb_gt _ _) L). specialize (GD L). destruct GD as (e & (t0 & E & F0 & T0 & Ee) & EK & R). rewrite E. cbn [rbind]. cbn [length] in KK.
    set (F := yield_factor a fq first b) in *. assert (EF : F d = / Rpower b e) by (unfold F, yield_factor; rewrite E, <- Ee; reflexivity).
    destruct (yield_disc _ b t t0 _ _ e K Fb BT Hb F0 T0 Ff Hf Ee EK HK R) as (u & Fu & Bu). rewrite p40 in R. set (P := Rpower b e) in *.
    assert (I : / 1099511627776 <= / P <= 1099511627776). { split; [apply Rinv_le; lra|]. replace 1099511627776 with (/ / 1099511627776) by field. apply Rinv_le; lra. }
    set (q := value x * / P). rewrite p30 in Bx. assert (P71 : 2 ^ 71 = 2361183241434822606848) by (rewrite pow_IZR; reflexivity).
    assert (Be : Rabs q <= 1073741824 * 1099511627776).
    { unfold q. rewrite Rabs_mult, (Rabs_pos_eq (/ P)) by lra. apply Rmult_le_compat; try lra; apply Rabs_pos. }
    assert (KN : (Z.of_nat (69 + 10 * K) <= 4194304)%Z) by lia. pose proof (band_linear _ _ KN Bu) as BL. pose proof (band_range _ _ KN Bu) as U23. rewrite plus_INR, mult_INR in BL. replace (INR 69) with 69 in BL by (cbn; lra). replace (INR 10) with 10 in BL by (cbn; lra).
    set (dc := gdiv (gof_Z 1) (f_powf (gadd (gof_Z 1) fy) (gmul t0 (as_real fq)))) in *.
    assert (QU : Rabs (q * u) <= 1073741824 * 1099511627776 * (4 / 3)) by (rewrite Rabs_mult; apply Rmult_le_compat; try apply Rabs_pos; [exact Be|rewrite Rabs_pos_eq; lra]).
    destruct (mul_err x dc (value x) (/ P * u) (conj Fx eq_refl) Fu) as (w & dd & tt & Fw & Hd & Ht & Ew).
    { apply two100_127. replace (value x * (/ P * u)) with (q * u) by (unfold q; ring). unfold two100. lra. }
    assert (DB : 0 <= delta <= / 8) by (unfold delta, e24; lra).
    assert (W : Rabs (w - q) <= delta * Rabs q + tiny).
    { rewrite Ew. replace (value x * (/ P * u) * (1 + dd) + tt - q) with (q * (u * (1 + dd) - 1) + tt) by (unfold q; ring). apply Rle_trans with (1 := Rabs_triang _ _). apply Rplus_le_compat; [|exact Ht]. rewrite Rabs_mult, Rmult_comm. apply Rmult_le_compat_r; [apply Rabs_pos|].
      replace (u * (1 + dd) - 1) with ((u - 1) + u * dd) by ring. apply Rle_trans with (1 := Rabs_triang _ _). rewrite Rabs_mult, (Rabs_pos_eq u) by lra.
      assert (u * Rabs dd <= 4 / 3 * e24) by (apply Rmult_le_compat; try lra; apply Rabs_pos). unfold delta. unfold e24 in *. lra. }
    assert (KR : 0 <= INR k <= 1048576). { split; [apply pos_INR|]. rewrite INR_IZR_INZ. apply IZR_le. lia. }
    assert (K99 : B + Rabs q <= 2 ^ 99).
    { assert (P99 : 2 ^ 99 = 633825300114114700748351602688) by (rewrite pow_IZR; reflexivity). rewrite P71 in HB. rewrite P99. lra. }
    destruct (acc_step s (gmul x dc) v w A B q (INR k) delta tiny Fs Fw W V HA KR DB tiny_1 K99) as (v1 & F1 & V1 & A1).
    assert (SK : INR (Datatypes.S k) = INR k + 1) by apply S_INR. rewrite <- SK in V1.
    destruct (IH (gadd s (gmul x dc)) v1 (A + q) (B + Rabs q) (Datatypes.S k) Fb BT Hb Ff eq_refl Hf HK G2 F1 A1) as (s' & v' & Es & Fv & Q1 & Q2 & Q3 & Q4).
    { rewrite SK, P71 in *. lra. }
    { lia. }
    { exact V1. }
    exists s', v'. split; [exact Es|]. split; [exact Fv|]. cbn [length]. rewrite <- plus_n_Sm. cbn [Nat.add] in Q1, Q3. unfold present_value, present_size in *. cbn [sum_over fold_right fst snd].
    fold (sum_over (fun p => value (snd p) * F (fst p)) (filter (fun p => (od_day pricing <? od_day (fst p))%Z) l)) in *.
    fold (sum_over (fun p => Rabs (value (snd p)) * F (fst p)) (filter (fun p => (od_day pricing <? od_day (fst p))%Z) l)) in *. rewrite EF. fold q.
    assert (AQ : Rabs (value x) * / P = Rabs q) by (unfold q; rewrite Rabs_mult, (Rabs_pos_eq (/ P)) by lra; reflexivity). rewrite AQ. pose proof (Rabs_pos q). rewrite <- !Rplus_assoc. split; [exact Q1|]. split; [lra|]. split; assumption.
Qed.
End Sums.

(** ** C150, continued *)
Lemma annuity_par : forall y n, 1 + y <> 0 -> annuity_bond y (1 + y) n = 1.
Proof.
  intros y n N. unfold annuity_bond. induction n as [|n IH]; [cbn; field|]. cbn [annuity]. assert (P : (1 + y) ^ n <> 0) by (apply pow_nonzero; exact N).
  apply Rplus_eq_reg_r with (/ (1 + y) ^ n - / (1 + y) ^ n). rewrite Rminus_diag_eq by reflexivity. rewrite !Rplus_0_r.
  replace (annuity y (1 + y) n + y / (1 + y) ^ S n + / (1 + y) ^ S n) with (annuity y (1 + y) n + / (1 + y) ^ n); [exact IH|]. cbn [pow]. field. auto.
Qed.
Lemma annuity_falls : forall c b b' n, 0 <= c -> 0 < b -> b <= b' -> annuity_bond c b' n <= annuity_bond c b n.
Proof.
  intros c b b' n C B L. assert (I : forall k, / b' ^ k <= / b ^ k) by (intro k; apply Rinv_le; [apply pow_lt; exact B|apply pow_incr; lra]).
  unfold annuity_bond. apply Rplus_le_compat; [|apply I]. induction n as [|n IH]; [cbn; lra|]. cbn [annuity]. apply Rplus_le_compat; [exact IH|]. unfold Rdiv. apply Rmult_le_compat_l; [exact C|apply I].
Qed.
(** at a yield equal to the coupon rate it costs its notional *)
Theorem c150_par : forall f_powi m v n, good_powi f_powi -> (Z.of_nat n = vb_year v * freq_number (vb_freq v))%Z -> (1 <= n)%nat -> (Z.of_nat n <= 65536)%Z ->
  let c := value (vb_coupon v) / IZR (freq_number (vb_freq v)) in finite (vb_coupon v) -> c = 0 \/ / 2 ^ 40 <= c <= / 2 -> (1 + c) ^ n <= 2 ^ 40 -> finite (vb_notional v) -> 1 <= value (vb_notional v) <= 2 ^ 40 ->
  exists x, virtual_npv f_powi m v (vb_coupon v) = Ret x /\ finite x /\ Rabs (value x - value (vb_notional v)) <= value (vb_notional v) * ((15 * INR n + 6) / 2 ^ 24).
Proof.
  intros f_powi m v n GP E N1 N c Fc HC R FN BN. assert (C0 : 0 <= c <= / 2) by (rewrite p40 in HC; lra).
  destruct (c150_price f_powi GP m v (vb_coupon v) n E N1 N Fc) as (x & X & F & Q); fold c; auto.
  - rewrite Rabs_pos_eq; lra.
  - split; [|exact R]. apply Rle_trans with 1; [rewrite p40; lra|]. apply pow_R1_Rle. lra.
  - destruct HC as [HC|HC]; [left; exact HC|right; lra].
  - fold c in Q. rewrite annuity_par, Rmult_1_r in Q by lra. exists x. auto.
Qed.
(** a higher yield, a lower price *)
Theorem c150_falls : forall f_powi m v y1 y2 n, good_powi f_powi -> (Z.of_nat n = vb_year v * freq_number (vb_freq v))%Z -> (1 <= n)%nat -> (Z.of_nat n <= 65536)%Z ->
  let f := IZR (freq_number (vb_freq v)) in let c := value (vb_coupon v) / f in
  finite y1 -> finite y2 -> value y1 <= value y2 -> (forall y, y = y1 \/ y = y2 -> Rabs (value y / f) <= / 2 /\ / 2 ^ 40 <= (1 + value y / f) ^ n <= 2 ^ 40) ->
  finite (vb_coupon v) -> c = 0 \/ / 2 ^ 40 <= c <= 1 -> finite (vb_notional v) -> 1 <= value (vb_notional v) <= 2 ^ 40 ->
  exists x1 x2, virtual_npv f_powi m v y1 = Ret x1 /\ virtual_npv f_powi m v y2 = Ret x2 /\ value x2 <= value x1 + value (vb_notional v) * annuity_bond c (1 + value y1 / f) n * ((30 * INR n + 12) / 2 ^ 24).
Proof.
  intros f_powi m v y1 y2 n GP E N1 N f c F1 F2 L H Fc HC FN BN.
  assert (NF : vb_freq v <> NoFrequency) by (intro Q; rewrite Q in E; cbn in E; lia). destruct (freq_pos _ NF) as [_ BF]. assert (Pf : 1 <= f) by (apply IZR_le; lia).
  destruct (H y1 (or_introl eq_refl)) as [A1 B1]. destruct (H y2 (or_intror eq_refl)) as [A2 B2].
  destruct (c150_price f_powi GP m v y1 n E N1 N F1 A1 B1 Fc HC FN BN) as (x1 & X1 & _ & Q1). destruct (c150_price f_powi GP m v y2 n E N1 N F2 A2 B2 Fc HC FN BN) as (x2 & X2 & _ & Q2).
  exists x1, x2. split; [exact X1|]. split; [exact X2|]. fold f c in Q1, Q2. assert (C0 : 0 <= c) by (rewrite p40 in HC; lra).
  assert (M : annuity_bond c (1 + value y2 / f) n <= annuity_bond c (1 + value y1 / f) n).
  { apply annuity_falls; [exact C0|apply Rabs_le_inv in A1; lra|]. apply Rplus_le_compat_l. unfold Rdiv. apply Rmult_le_compat_r; [left; apply Rinv_0_lt_compat; lra|exact L]. }
  apply Rabs_le_inv in Q1. apply Rabs_le_inv in Q2. set (N0 := value (vb_notional v)) in *. assert (M' : N0 * annuity_bond c (1 + value y2 / f) n <= N0 * annuity_bond c (1 + value y1 / f) n) by (apply Rmult_le_compat_l; lra).
  set (p1 := N0 * annuity_bond c (1 + value y1 / f) n) in *. set (p2 := N0 * annuity_bond c (1 + value y2 / f) n) in *. pose proof (pos_INR n) as IN. rewrite p24' in *.
  set (z := (15 * INR n + 6) / 16777216) in *. replace ((30 * INR n + 12) / 16777216) with (2 * z) by (unfold z; field). assert (Z0 : 0 <= z) by (unfold z; lra).
  assert (p2 * z <= p1 * z) by (apply Rmult_le_compat_r; assumption). clearbody p1 p2 z. lra.
Qed.
(** the number of coupons a year *)
Theorem c150_frequency : forall f, freq_number f = per_year f.
Proof. intros []; reflexivity. Qed.
(** REFUTED: the number of coupons is a product of i32: it panics, or wraps *)
Theorem c150_overflow_refuted : forall f_powi v y, (2147483647 < vb_year v * freq_number (vb_freq v))%Z -> virtual_npv f_powi Checked v y = Panic.
Proof. intros f_powi v y H. unfold virtual_npv. rewrite (proj2 (Z.leb_gt _ _) H), andb_false_r. reflexivity. Qed.

(** ** C151: the price of a bond at a yield *)
Lemma earliest_spec : forall l, match earliest l with None => l = [] | Some e => In e l /\ forall d, In d l -> (instant e <= instant d)%Z end.
Proof.
  induction l as [|d l IH]; [reflexivity|]. cbn [earliest]. destruct (earliest l) as [e|].
  - destruct IH as [I M]. destruct (Z.ltb_spec (instant e) (instant d)) as [L|L]; split; [right; exact I| |left; reflexivity|]; intros x [<-|X]; try lia; specialize (M x X); lia.
  - subst l. split; [left; reflexivity|]. intros x [<-|[]]. lia.
Qed.
Lemma latest_spec : forall l, match latest l with None => l = [] | Some e => In e l /\ forall d, In d l -> (instant d <= instant e)%Z end.
Proof.
  induction l as [|d l IH]; [reflexivity|]. cbn [latest]. destruct (latest l) as [e|].
  - destruct IH as [I M]. destruct (Z.ltb_spec (instant e) (instant d)) as [L|L]; split; [left; reflexivity| |right; exact I|]; intros x [<-|X]; try lia; specialize (M x X); lia.
  - subst l. split; [left; reflexivity|]. intros x [<-|[]]. lia.
Qed.
Lemma same_key : forall (m : list (odt * f32)) p q, NoDup (map (fun p => instant (fst p)) m) -> In p m -> In q m -> instant (fst p) = instant (fst q) -> p = q.
Proof.
  induction m as [|r m IH]; intros p q ND P Q E; [destruct P|]. inversion ND as [|? ? N1 N2]; subst. destruct P as [->|P], Q as [->|Q].
  - reflexivity.
  - exfalso. apply N1. rewrite E. exact (in_map (fun p => instant (fst p)) m q Q).
  - exfalso. apply N1. rewrite <- E. exact (in_map (fun p => instant (fst p)) m p P).
  - apply IH; assumption.
Qed.
Lemma in_dates : forall order pricing m d, iterates order -> (In d (filter (fun d => (od_day pricing <? od_day d)%Z) (map fst (order m))) <-> In d (map fst (future pricing m))).
Proof.
  intros order pricing m d IT. rewrite filter_In, !in_map_iff. unfold future. split.
  - intros [(p & <- & P) L]. exists p. split; [reflexivity|]. apply filter_In. split; [apply (Permutation_in p (IT m)); exact P|exact L].
  - intros (p & <- & P). apply filter_In in P. split; [exists p; split; [reflexivity|apply (Permutation_in p (Permutation_sym (IT m))); tauto]|tauto].
Qed.
Lemma first_found : forall order pricing m first maturity, iterates order -> NoDup (map (fun p => instant (fst p)) m) -> first_after pricing m first ->
  match earliest (filter (fun d => (od_day pricing <? od_day d)%Z) (map fst (order m))) with Some d => d | None => maturity end = first.
Proof.
  intros order pricing m first maturity IT ND [I M]. pose proof (earliest_spec (filter (fun d => (od_day pricing <? od_day d)%Z) (map fst (order m)))) as S. destruct (earliest _) as [e|].
  - destruct S as [I' M']. pose proof (M' first (proj2 (in_dates order pricing m first IT) I)) as A. apply (in_dates order pricing m e IT) in I'. pose proof (M e I') as B.
    apply in_map_iff in I, I'. destruct I as (p & <- & P). destruct I' as (q & <- & Q). apply filter_In in P, Q. f_equal. apply (same_key m); try tauto. lia.
  - exfalso. apply (in_dates order pricing m first IT) in I. rewrite S in I. destruct I.
Qed.
Lemma last_found : forall pricing b last, last_until pricing b last ->
  match latest (filter (fun d => (od_day d <=? od_day pricing)%Z) (map (fun r => payment_date (rw_dates r)) (bd_rows b))) with Some d => d | None => bd_issue b end = last.
Proof.
  intros pricing b last H. pose proof (latest_spec (filter (fun d => (od_day d <=? od_day pricing)%Z) (map (fun r => payment_date (rw_dates r)) (bd_rows b)))) as S. unfold last_until in H. set (l := map (fun r => payment_date (rw_dates r)) (bd_rows b)) in *.
  destruct (latest _) as [e|].
  - destruct S as [I M]. apply filter_In in I. destruct I as [I L]. apply Z.leb_le in L. destruct H as [(I' & L' & M')|[N _]]; [|specialize (N e I); lia].
    assert (X : In last (filter (fun d => (od_day d <=? od_day pricing)%Z) l)) by (apply filter_In; split; [exact I'|apply Z.leb_le; exact L']). specialize (M last X). destruct (M' e I L) as [Q|Q]; [lia|exact Q].
  - destruct H as [(I' & L' & _)|[_ ->]]; [|reflexivity]. assert (X : In last (filter (fun d => (od_day d <=? od_day pricing)%Z) l)) by (apply filter_In; split; [exact I'|apply Z.leb_le; exact L']). rewrite S in X. destruct X.
Qed.
Lemma ratio_fn : forall d k, (0 < d <= k)%Z -> (k <= 16777216)%Z -> exists z, fn (gdiv (gof_Z d) (gof_Z k)) (IZR d / IZR k * (1 + z)) /\ Rabs z <= e24.
Proof.
  intros d k D K. assert (Fd : fn (gof_Z d : f32) (IZR d)) by (destruct (small_fin d ltac:(lia)) as [A B]; split; assumption). assert (Fk : fn (gof_Z k : f32) (IZR k)) by (destruct (small_fin k ltac:(lia)) as [A B]; split; assumption).
  assert (D1 : 1 <= IZR d) by (apply IZR_le; lia). assert (DK : IZR d <= IZR k) by (apply IZR_le; lia). assert (K1 : IZR k <= 16777216) by (apply IZR_le; lia).
  assert (Q : / 16777216 <= IZR d / IZR k <= 1).
  { unfold Rdiv. split; [apply Rle_trans with (1 * / 16777216); [lra|]; apply Rmult_le_compat; try lra; apply Rinv_le; lra|]. apply Rmult_le_reg_r with (IZR k); [lra|]. rewrite Rmult_assoc, Rinv_l by lra. lra. }
  destruct lo_hi as [LO HI]. assert (Fd1 : fn (gof_Z d : f32) (IZR d * 1)) by (rewrite Rmult_1_r; exact Fd). assert (Fk1 : fn (gof_Z k : f32) (IZR k * 1)) by (rewrite Rmult_1_r; exact Fk).
  destruct (div_band _ _ _ _ 1 1 0 0 Fd1 Fk1 (band_one 0) (band_one 0)) as (u & Fu & Bu); [lra|right; rewrite LO, HI; lra|lia|].
  exists (u - 1). split; [replace (1 + (u - 1)) with u by ring; exact Fu|]. unfold band in Bu. cbn [Nat.add Nat.mul pow] in Bu. lra.
Qed.
Theorem c151_price : forall f_ln f_powf order order' eval fwd past bond_yield b m first last K, good_powf f_powf -> iterates order -> iterates order' -> let pricing := pricing_of b eval in
  cashflows f_ln b eval pricing fwd past = Ret (ROk m) -> first_after pricing m first -> last_until pricing b last -> (od_day last <= od_day pricing)%Z -> (od_day first - od_day last <= 16777216)%Z -> bd_freq b <> NoFrequency ->
  let y := value bond_yield / IZR (freq_number (bd_freq b)) in finite bond_yield -> Rabs y <= / 2 ->
  (Z.of_nat K <= 4096)%Z -> (Z.of_nat (length (future pricing m)) <= 1048576)%Z -> Forall (good_yield_flow (bd_cal b) (bd_freq b) pricing first (1 + y) K) m ->
  let n := INR (length (future pricing m)) in let F := yield_factor (bd_cal b) (bd_freq b) first (1 + y) in let g := 1 + y * (IZR (od_day first - od_day pricing) / IZR (od_day first - od_day last)) in
  exists x, yield_npv f_ln f_powf order order' eval fwd past bond_yield b = Ret (ROk x) /\ finite x /\
    Rabs (value x - present_value F (future pricing m) / g) <= present_size F (future pricing m) / g * ((3 * n + 29 * INR K + 210) / 2 ^ 24) + (n + 1) / 2 ^ 140.
Proof.
  intros f_ln f_powf order order' eval fwd past bond_yield b m first last K GP IT IT' pricing C FA LU LP KL NF y Fy Y HK N G n F g.
  destruct (freq_pos _ NF) as [FF BF]. set (f := IZR (freq_number (bd_freq b))) in *. assert (F1 : 1 <= f <= 252) by (split; apply IZR_le; lia).
  assert (Hb : / 2 <= 1 + y <= 3 / 2) by (apply Rabs_le_inv in Y; lra).
  assert (DP : (0 < od_day first - od_day pricing <= od_day first - od_day last)%Z).
  { destruct FA as [I _]. apply in_map_iff in I. destruct I as (p & <- & P). unfold future in P. apply filter_In in P. destruct P as [_ P]. apply Z.ltb_lt in P. lia. }
  set (d := (od_day first - od_day pricing)%Z) in *. set (k := (od_day first - od_day last)%Z) in *.
  destruct (div_err bond_yield (as_real (bd_freq b)) _ _ (conj Fy eq_refl) FF ltac:(lra)) as (w & dy & t & Fw & D & T & W). { fold (value bond_yield). apply two100_127. unfold two100. fold f. fold y. lra. } fold (value bond_yield) in W. fold f in W. fold y in W.
  destruct (one_plus _ w y Fw Y) as (tb & FB & BB).
  { rewrite W. replace (y * (1 + dy) + t - y) with (y * dy + t) by ring. apply Rle_trans with (1 := Rabs_triang _ _). apply Rplus_le_compat; [|exact T]. rewrite Rabs_mult. apply Rmult_le_compat_l; [apply Rabs_pos|]. unfold e24 in *. lra. }
  set (fy := gdiv bond_yield (as_real (bd_freq b))) in *.
  (* the sum *)
  assert (PF : Permutation (future pricing (order' m)) (future pricing m)) by (apply perm_filter; apply IT'). pose proof (Permutation_length PF) as PL.
  assert (HZ0 : 0 <= 0 * 2 ^ 71) by lra.
  destruct (yield_sum_err f_powf GP (bd_cal b) (bd_freq b) pricing first fy (1 + y) tb K f (order' m) (gof_Z 0) 0 0 0 0%nat FB BB Hb FF eq_refl F1 HK (perm_forall _ _ _ (Permutation_sym (IT' m)) G) zero_fn) as (s & v & Es & Fs & Q & S0 & S1 & SA).
  { rewrite Rabs_R0; lra. } { cbn [INR]. lra. } { rewrite PL. exact N. } { cbn [INR]. rewrite Rminus_0_r, Rabs_R0. lra. }
  rewrite Nat.add_0_l, PL in Q, S1. unfold present_value, present_size in Q, S0, S1, SA. rewrite !(sum_perm _ _ _ PF), ?Rplus_0_l in Q. rewrite !(sum_perm _ _ _ PF) in S0. rewrite !(sum_perm _ _ _ PF), ?Rplus_0_l in S1. rewrite !(sum_perm _ _ _ PF), ?Rplus_0_l in SA.
  set (A := sum_over (fun p => value (snd p) * yield_factor (bd_cal b) (bd_freq b) first (1 + y) (fst p)) (future pricing m)) in *. set (B := sum_over (fun p => Rabs (value (snd p)) * yield_factor (bd_cal b) (bd_freq b) first (1 + y) (fst p)) (future pricing m)) in *. fold n in Q, S1.
  change (present_value F (future pricing m)) with A. change (present_size F (future pricing m)) with B.
  (* the rest of the period *)
  destruct (ratio_fn d k DP KL) as (zq & Fq & Zq). assert (R01 : 0 <= IZR d / IZR k <= 1).
  { assert (0 < IZR d) by (apply IZR_lt; lia). assert (IZR d <= IZR k) by (apply IZR_le; lia). split; [apply Rmult_le_pos; [lra|left; apply Rinv_0_lt_compat; lra]|]. apply Rmult_le_reg_r with (IZR k); [lra|]. unfold Rdiv. rewrite Rmult_assoc, Rinv_l by lra. lra. }
  set (r := IZR d / IZR k) in *. pose proof tiny_1 as T1. assert (TS : tiny <= e24 * / 100) by (pose proof QBondProofs.tiny_small; unfold e24 in *; lra).
  assert (YW : Rabs (w - y) <= / 2 * e24 + e24 * / 100).
  { rewrite W. replace (y * (1 + dy) + t - y) with (y * dy + t) by ring. apply Rle_trans with (1 := Rabs_triang _ _). rewrite Rabs_mult. assert (Rabs y * Rabs dy <= / 2 * e24) by (apply Rmult_le_compat; auto using Rabs_pos). lra. }
  assert (WB : Rabs w <= 0.51) by (replace w with (y + (w - y)) by ring; apply Rle_trans with (1 := Rabs_triang _ _); unfold e24 in YW; lra).
  assert (ZB := Rabs_le_inv _ _ Zq). assert (RZ : 0 <= r * (1 + zq) <= 1.001) by (unfold e24 in ZB; split; [apply Rmult_le_pos; lra|apply Rle_trans with (1 * 1.001); [apply Rmult_le_compat; lra|lra]]).
  assert (MB : Rabs (w * (r * (1 + zq))) <= 0.511) by (rewrite Rabs_mult, (Rabs_pos_eq (r * (1 + zq))) by lra; apply Rle_trans with (0.51 * 1.001); [apply Rmult_le_compat; try lra; apply Rabs_pos|lra]).
  destruct (mul_err fy _ w _ Fw Fq) as (h & dh & th & Fh & Dh & Th & Eh). { apply two100_127. unfold two100. lra. }
  destruct (one_plus_wide _ h (y * r) Fh) as (tg & Fg & Bg).
  { rewrite Rabs_mult, (Rabs_pos_eq r) by lra. apply Rle_trans with (/ 2 * 1); [apply Rmult_le_compat; try lra; apply Rabs_pos|lra]. }
  { rewrite Eh. replace (w * (r * (1 + zq)) * (1 + dh) + th - y * r) with ((w - y) * r + w * r * zq + w * (r * (1 + zq)) * dh + th) by ring.
    assert (X1 : Rabs ((w - y) * r) <= (/ 2 * e24 + e24 * / 100) * 1) by (rewrite Rabs_mult, (Rabs_pos_eq r) by lra; apply Rmult_le_compat; try lra; apply Rabs_pos).
    assert (X2 : Rabs (w * r * zq) <= 0.51 * 1 * e24) by (rewrite !Rabs_mult, (Rabs_pos_eq r) by lra; apply Rmult_le_compat; try lra; [apply Rmult_le_pos; [apply Rabs_pos|lra]|apply Rabs_pos|apply Rmult_le_compat; try lra; apply Rabs_pos]).
    assert (X3 : Rabs (w * (r * (1 + zq)) * dh) <= 0.511 * e24) by (rewrite Rabs_mult; apply Rmult_le_compat; auto using Rabs_pos).
    pose proof (Rabs_triang ((w - y) * r + w * r * zq + w * (r * (1 + zq)) * dh) th). pose proof (Rabs_triang ((w - y) * r + w * r * zq) (w * (r * (1 + zq)) * dh)). pose proof (Rabs_triang ((w - y) * r) (w * r * zq)). unfold e24 in *. lra. }
  fold g in Fg. assert (Hg : / 2 <= g <= 3 / 2).
  { assert (YR : Rabs (y * r) <= / 2 * 1) by (rewrite Rabs_mult, (Rabs_pos_eq r) by lra; apply Rmult_le_compat; try lra; apply Rabs_pos). apply Rabs_le_inv in YR. unfold g. lra. }
  pose proof (band_range 6 tg ltac:(lia) Bg) as T6. assert (GT : / 4 <= g * tg <= 2) by (split; [apply Rle_trans with (/ 2 * (2 / 3)); [lra|apply Rmult_le_compat; lra]|apply Rle_trans with (3 / 2 * (4 / 3)); [apply Rmult_le_compat; lra|lra]]).
  assert (P71 : 2 ^ 71 = 2361183241434822606848) by (rewrite pow_IZR; reflexivity). rewrite P71 in S1.
  assert (NN : 0 <= n <= 1048576) by (unfold n; rewrite INR_IZR_INZ; split; apply IZR_le; lia).
  assert (KR4 : INR K <= 4096) by (rewrite INR_IZR_INZ; apply IZR_le; exact HK). pose proof (pos_INR K) as K0.
  set (delta := (94 + 14 * INR K) * e24) in *. assert (DB : 0 <= delta <= / 8) by (unfold delta, e24; lra).
  set (ep := 2 * n * e24 + 2 * delta) in *. assert (EP : 0 <= ep <= 1) by (unfold ep, e24; lra).
  assert (EB : ep * B <= 1 * B) by (apply Rmult_le_compat_r; lra). assert (NT : n * (2 * tiny) <= 1048576 * 2) by (apply Rmult_le_compat; lra).
  assert (VB : Rabs v <= 2 * B + 3000000) by (replace v with (A + (v - A)) by ring; apply Rle_trans with (1 := Rabs_triang _ _); lra).
  assert (VG : Rabs (v / (g * tg)) <= two100). { unfold Rdiv. rewrite Rabs_mult, (Rabs_pos_eq (/ (g * tg))) by (left; apply Rinv_0_lt_compat; lra). apply Rle_trans with ((2 * B + 3000000) * 4); [apply Rmult_le_compat; try lra; [apply Rabs_pos|left; apply Rinv_0_lt_compat; lra|replace 4 with (/ / 4) by field; apply Rinv_le; lra]|unfold two100; lra]. }
  destruct (div_err s _ v (g * tg) Fs Fg ltac:(lra)) as (x & dx & tx & Fx & Dx & Tx & Ex). { apply two100_127. pose proof two100_pos. lra. }
  destruct Fx as [FX VX]. eexists. split; [|split; [exact FX|]].
  - unfold yield_npv. fold pricing. rewrite C. cbn [rbind]. rewrite (first_found order pricing m first (bd_maturity b) IT (c148_distinct _ _ _ _ _ _ _ C) FA), (last_found pricing b last LU). fold fy. rewrite Es. cbn [rbind]. reflexivity.
  - unfold value at 1. fold d k. rewrite VX, Ex. assert (BQ : band 13 (/ tg * (1 + dx))) by (apply (band_step 12); [apply (band_inv 6); [lia|exact Bg]|exact Dx]).
    pose proof (band_linear 13 _ ltac:(lia) BQ) as L13. replace (INR 13) with 13 in L13 by (cbn; lra). set (q := / tg * (1 + dx)) in *.
    replace (v / (g * tg) * (1 + dx) + tx - A / g) with ((v - A) * q * / g + A * (q - 1) * / g + tx) by (unfold q; field; split; lra).
    assert (QB : Rabs q <= 1.001) by (replace q with (1 + (q - 1)) by ring; apply Rle_trans with (1 := Rabs_triang _ _); rewrite Rabs_R1; unfold e24 in L13; lra).
    assert (IG : 0 < / g <= 2) by (split; [apply Rinv_0_lt_compat; lra|replace 2 with (/ / 2) by field; apply Rinv_le; lra]). set (ig := / g) in *.
    pose proof (Rabs_triang ((v - A) * q * ig + A * (q - 1) * ig) tx) as R1. pose proof (Rabs_triang ((v - A) * q * ig) (A * (q - 1) * ig)) as R2. apply Rle_trans with (1 := R1).
    assert (X1 : Rabs ((v - A) * q * ig) <= (ep * B + n * (2 * tiny)) * 1.001 * ig) by (rewrite !Rabs_mult, (Rabs_pos_eq ig) by lra; apply Rmult_le_compat_r; [lra|]; apply Rmult_le_compat; auto using Rabs_pos).
    assert (X2 : Rabs (A * (q - 1) * ig) <= B * (4 / 3 * (13 * e24)) * ig) by (rewrite !Rabs_mult, (Rabs_pos_eq ig) by lra; apply Rmult_le_compat_r; [lra|]; apply Rmult_le_compat; auto using Rabs_pos).
    unfold Rdiv at 1. fold ig.
    assert (X3 : n * (2 * tiny) * 1.001 * ig <= n * (2 * tiny) * 1.001 * 2) by (apply Rmult_le_compat_l; [apply Rmult_le_pos; [apply Rmult_le_pos; lra|lra]|lra]).
    assert (BI : 0 <= B * ig) by (apply Rmult_le_pos; lra). set (bi := B * ig) in *.
    replace ((ep * B + n * (2 * tiny)) * 1.001 * ig) with (bi * (ep * 1.001) + n * (2 * tiny) * 1.001 * ig) in X1 by (unfold bi; ring). replace (B * (4 / 3 * (13 * e24)) * ig) with (bi * (4 / 3 * (13 * e24))) in X2 by (unfold bi; ring).
    assert (X4 : bi * (ep * 1.001 + 4 / 3 * (13 * e24)) <= bi * ((3 * n + 29 * INR K + 210) / 2 ^ 24)).
    { apply Rmult_le_compat_l; [exact BI|]. unfold ep, delta. rewrite p24'. unfold e24. lra. }
    rewrite Rmult_plus_distr_l in X4.
    assert (T140 : 5 * tiny <= / 2 ^ 140). { unfold tiny. change (-150)%Z with (Z.opp 150). rewrite bpow_opp. change (bpow radix2 150) with (IZR (2 ^ 150)). assert (P150 : IZR (2 ^ 150) = 2 ^ 140 * 1024) by (rewrite (pow_IZR 2 140), <- mult_IZR; reflexivity). rewrite P150, Rinv_mult_distr; [|apply pow_nonzero; lra|lra].
      assert (0 < / 2 ^ 140) by (apply Rinv_0_lt_compat; apply pow_lt; lra). lra. }
    unfold Rdiv at 2. set (z140 := / 2 ^ 140) in *. assert (X5 : n * (5 * tiny) <= n * z140) by (apply Rmult_le_compat_l; lra). assert (X6 : n * tiny <= n * tiny) by lra. set (nt := n * tiny) in *.
    assert (Y3 : n * (2 * tiny) * 1.001 * 2 = 4.004 * nt) by (unfold nt; lra). assert (Y5 : n * (5 * tiny) = 5 * nt) by (unfold nt; lra). rewrite Y3 in X3. rewrite Y5 in X5. assert (NT0 : 0 <= nt) by (unfold nt; apply Rmult_le_pos; lra).
    replace ((n + 1) * z140) with (n * z140 + z140) by ring. set (nz := n * z140) in *.
    clearbody nz nt z140 bi. lra.
Qed.
(** REFUTED: on the day of the last payment the price is not a number *)
Lemma zero_zero : (gdiv (gof_Z 0) (gof_Z 0) : f32) = B754_nan. Proof. reflexivity. Qed.
Lemma mul_nan : forall x : f32, gmul x B754_nan = B754_nan. Proof. intros [s|s| |s m e H]; reflexivity. Qed.
Lemma no_future : forall f_powf l a pricing first y fr s, future pricing l = [] -> yield_sum f_powf l a pricing first y fr s = Ret (ROk s).
Proof.
  intros f_powf l a pricing first y fr s. induction l as [|[d x] l IH]; intro H; [reflexivity|]. unfold future in H. cbn [filter fst] in H. cbn [yield_sum]. destruct (Z.ltb_spec (od_day pricing) (od_day d)) as [L|L]; [discriminate H|].
  rewrite (proj2 (Z.leb_le _ _) L). apply IH. exact H.
Qed.
Theorem c151_matured_refuted : forall f_ln f_powf order order' eval fwd past bond_yield b m last, iterates order -> iterates order' -> let pricing := pricing_of b eval in
  cashflows f_ln b eval pricing fwd past = Ret (ROk m) -> future pricing m = [] -> last_until pricing b last -> od_day last = od_day (bd_maturity b) -> od_day (bd_maturity b) = od_day pricing ->
  exists x, yield_npv f_ln f_powf order order' eval fwd past bond_yield b = Ret (ROk x) /\ is_nan x = true.
Proof.
  intros f_ln f_powf order order' eval fwd past bond_yield b m last IT IT' pricing C NF LU L1 L2. unfold yield_npv. fold pricing. rewrite C. cbn [rbind].
  assert (E : earliest (filter (fun d => (od_day pricing <? od_day d)%Z) (map fst (order m))) = None).
  { pose proof (earliest_spec (filter (fun d => (od_day pricing <? od_day d)%Z) (map fst (order m)))) as S. destruct (earliest _) as [e|]; [|reflexivity]. destruct S as [I _]. apply (in_dates order pricing m e IT) in I. rewrite NF in I. destruct I. }
  rewrite E, (last_found pricing b last LU).
  rewrite no_future; [|pose proof (perm_filter (fun p => (od_day pricing <? od_day (fst p))%Z) _ _ (IT' m)) as P; fold (future pricing (order' m)) (future pricing m) in P; rewrite NF in P; apply Permutation_nil; apply Permutation_sym; exact P].
  cbn [rbind]. eexists. split; [reflexivity|]. rewrite L1, L2, Z.sub_diag, zero_zero, mul_nan. cbn. reflexivity.
Qed.
(** REFUTED: a bond without coupon dates (NoFrequency) costs nothing at any
    positive yield *)
Lemma over_zero : forall y : f32, finite y -> 0 < value y -> gdiv y (gof_Z 0) = B754_infinity false.
Proof.
  intros [s|s| |s m e H] F P; try discriminate F; [cbn in P; lra|]. destruct s; [exfalso|reflexivity]. unfold value in P. cbn -[IZR] in P. assert (N : @F2R radix2 {| Defs.Fnum := Z.neg m; Defs.Fexp := e |} < 0) by (apply F2R_lt_0; cbn; lia). lra.
Qed.
Lemma times_zero : forall t : f32, finite t -> finite (gmul t (gof_Z 0)) /\ value (gmul t (gof_Z 0)) = 0.
Proof. intros [s|s| |s m e H] F; try discriminate F; destruct s; split; reflexivity. Qed.
Lemma inf_times : forall z : f32, finite z -> 0 < value z -> gmul (B754_infinity false) z = B754_infinity false.
Proof.
  intros [s|s| |s m e H] F P; try discriminate F; [cbn in P; lra|]. destruct s; [exfalso|reflexivity]. unfold value in P. cbn -[IZR] in P. assert (N : @F2R radix2 {| Defs.Fnum := Z.neg m; Defs.Fexp := e |} < 0) by (apply F2R_lt_0; cbn; lia). lra.
Qed.
Lemma over_inf : forall s : f32, finite s -> finite (gdiv s (B754_infinity false)) /\ value (gdiv s (B754_infinity false)) = 0.
Proof. intros [s|s| |s m e H] F; try discriminate F; destruct s; split; reflexivity. Qed.
Lemma zero_plus : forall s : f32, finite s -> finite (gadd (gof_Z 0) s).
Proof. intros [s|s| |s m e H] F; try discriminate F; destruct s; reflexivity. Qed.
Lemma one_over_one : gdiv (gof_Z 1) (gof_Z 1) = (gof_Z 1 : f32).
Proof.
  apply B2SF_inj. vm_compute. reflexivity.
Qed.
Theorem c151_no_frequency_refuted : forall f_ln f_powf order order' eval fwd past bond_yield b d x t last, iterates order -> iterates order' -> let pricing := pricing_of b eval in
  (forall x e, finite e -> value e = 0 -> f_powf x e = gof_Z 1) -> cashflows f_ln b eval pricing fwd past = Ret (ROk [(d, x)]) -> (od_day pricing < od_day d)%Z -> finite x -> bd_freq b = NoFrequency ->
  year_fraction (bd_cal b) d d StreetConvention = Ret (ROk t) -> finite t -> last_until pricing b last -> (od_day last <= od_day pricing)%Z -> (od_day d - od_day last <= 16777216)%Z -> finite bond_yield -> 0 < value bond_yield ->
  exists z, yield_npv f_ln f_powf order order' eval fwd past bond_yield b = Ret (ROk z) /\ finite z /\ value z = 0.
Proof.
  intros f_ln f_powf order order' eval fwd past bond_yield b d x t last IT IT' pricing PW C L Fx NF Y Ft LU LP KL Fy Py.
  assert (FA : first_after pricing [(d, x)] d).
  { unfold first_after, future. cbn [filter fst]. rewrite (proj2 (Z.ltb_lt _ _) L). cbn. split; [left; reflexivity|]. intros e [<-|[]]. lia. }
  assert (O1 : forall o, iterates o -> o [(d, x)] = [(d, x)]) by (intros o I; apply Permutation_length_1_inv; apply Permutation_sym; apply I).
  unfold yield_npv. fold pricing. rewrite C. cbn [rbind]. rewrite (first_found order pricing _ d (bd_maturity b) IT (c148_distinct _ _ _ _ _ _ _ C) FA), (last_found pricing b last LU). rewrite (O1 order' IT').
  cbn [yield_sum]. rewrite (proj2 (Z.leb_gt _ _) L), Y. cbn [rbind]. rewrite NF. change (as_real NoFrequency) with (gof_Z 0 : f32). rewrite (over_zero _ Fy Py).
  destruct (times_zero t Ft) as [FT VT]. rewrite (PW _ _ FT VT).
  assert (DP : (0 < od_day d - od_day pricing <= od_day d - od_day last)%Z) by lia. destruct (ratio_fn _ _ DP KL) as (zq & [Fq Vq] & Zq).
  assert (Pq : 0 < value (gdiv (gof_Z (od_day d - od_day pricing) : f32) (gof_Z (od_day d - od_day last)))).
  { unfold value. rewrite Vq. apply Rabs_le_inv in Zq. unfold e24 in Zq. apply Rmult_lt_0_compat; [|lra]. apply Rdiv_lt_0_compat; apply IZR_lt; lia. }
  rewrite (inf_times _ Fq Pq). change (gadd (gof_Z 1) (B754_infinity false)) with (B754_infinity false : f32).
  eexists. split; [reflexivity|]. apply over_inf.
  rewrite one_over_one, (times_one x Fx). apply zero_plus. exact Fx.
Qed.
Print Assumptions c150_price.
Print Assumptions c150_par.
Print Assumptions c150_falls.
Print Assumptions c150_overflow_refuted.
Print Assumptions c151_price.
Print Assumptions c151_matured_refuted.
Print Assumptions c151_no_frequency_refuted.
Print Assumptions c150_frequency.
