(** QCurveFwdProps.v -- zero curves: factors between times, forward rates, bumps,
    many points at once: the properties (C138-C141). *)
From Coq Require Import ZArith List Bool Reals Lia Lra Ascii String.
From Flocq Require Import Core IEEE754.BinarySingleNaN.
From Verif Require Import Base CivilSpec FloatModel FloatFacts KrxModel QDateModel QDateProofs QCalModel QCalSpec QCalRules QPeriodModel QPeriodSpec
  QYearModel QYearProofs QYearSpec QYearProps QFindModel QFindSpec QFindProofs QFindProps QInterpModel QInterpSpec QInterpProofs QFloatErr QLinProofs QLinProps QDivModel QDivProps QRollProofs
  QCurveModel QCurveSpec QCurveDates QCurveProofs QCurveFacts QCurveReach QCurveDisc QCurveExp QCurveProps.
Import ListNotations.
Open Scope R_scope.

(** ** C138: between two times *)
Lemma le_true : forall a b : f32, finite a -> finite b -> value a <= value b -> o_le fcmp a b = true.
Proof. intros a b Fa Fb H. apply fle_finite in H; try assumption. unfold o_le. destruct H as [-> | ->]; reflexivity. Qed.
Theorem c138_errors : forall c t1 t2,
  (finite t1 -> finite t2 -> value t2 < value t1 -> discount_between c t1 t2 = Ret RErr) /\
  (is_nan t1 = true \/ is_nan t2 = true -> discount_between c t1 t2 = Ret RErr) /\
  (forall a, discount c t1 = Ret (ROk a) -> discount c t2 = Ret RErr -> discount_between c t1 t2 = Ret RErr).
Proof.
  intros c t1 t2. unfold discount_between. split; [|split].
  - intros F1 F2 H. assert (L : lt fcmp t2 t1) by (apply flt_finite; assumption). unfold lt, fcmp in L. rewrite Bcompare_swap in L.
    unfold o_le, fcmp. destruct (Bcompare t1 t2) as [[]|]; cbn in L; try discriminate L; reflexivity.
  - intro H. unfold o_le, fcmp. replace (Bcompare t1 t2) with (None : option comparison); [reflexivity|].
    destruct H as [H|H]; [destruct t1; try discriminate H; destruct t2; reflexivity|destruct t2; try discriminate H; destruct t1; reflexivity].
  - intros a E1 E2. destruct (o_le fcmp t1 t2); [|reflexivity]. rewrite E2. reflexivity.
Qed.
(** from a time to itself: exactly 1, unless the factor there is 0 *)
Theorem c138_same : forall c t D, finite t -> discount c t = Ret (ROk D) -> finite D -> value D <> 0 -> exists y, discount_between c t t = Ret (ROk y) /\ finite y /\ value y = 1.
Proof.
  intros c t D Ft E FD N. unfold discount_between. rewrite le_true by (try assumption; lra). rewrite E. cbn [rbind]. eexists. split; [reflexivity|]. exact (div_same D FD N).
Qed.
(** the quotient of the two factors, correctly rounded *)
Theorem c138_quotient : forall c t1 t2 D1 D2, finite t1 -> finite t2 -> value t1 <= value t2 -> discount c t1 = Ret (ROk D1) -> discount c t2 = Ret (ROk D2) ->
  finite D1 -> finite D2 -> / 2 ^ 40 <= value D1 <= 2 ^ 40 -> / 2 ^ 40 <= value D2 <= 2 ^ 40 ->
  exists y e, discount_between c t1 t2 = Ret (ROk y) /\ finite y /\ Rabs e <= / 2 ^ 24 /\ value y = value D2 / value D1 * (1 + e).
Proof.
  intros c t1 t2 D1 D2 F1 F2 L E1 E2 G1 G2 B1 B2. unfold discount_between. rewrite le_true by assumption. rewrite E2, E1. cbn [rbind].
  assert (P40 : 0 < / 2 ^ 40) by (apply Rinv_0_lt_compat; apply pow_lt; lra).
  assert (QB : / 2 ^ 80 <= value D2 / value D1 <= 2 ^ 80).
  { change 80%nat with (40 + 40)%nat. rewrite pow_add. split.
    - rewrite Rinv_mult. apply Rmult_le_compat; try lra. apply Rinv_le; lra.
    - apply Rmult_le_compat; try lra. { left; apply Rinv_0_lt_compat; lra. } rewrite <- (Rinv_inv (2 ^ 40)). apply Rinv_le; lra. }
  assert (P80 : 0 < / 2 ^ 80) by (apply Rinv_0_lt_compat; apply pow_lt; lra).
  destruct (rnd_rel (value D2 / value D1)) as (e & He & Ee).
  { rewrite Rabs_pos_eq by lra. apply Rle_trans with (2 := proj1 QB). unfold small. replace (/ 2 ^ 80) with (bpow radix2 (-80)); [apply bpow_le; lia|].
    change (-80)%Z with (- (80))%Z. rewrite bpow_opp. f_equal. rewrite pow_IZR. reflexivity. }
  pose proof (fin_div 24 128 D2 D1 _ _ (fin_of D2 G2) (fin_of D1 G1)) as Q. unfold real_of in Q. fold (value D1) in Q. fold (value D2) in Q.
  destruct Q as [Q1 Q2]; [lra| |].
  { rewrite Rabs_pos_eq by lra. apply Rle_trans with (1 := proj2 QB). rewrite hug. rewrite <- (IZR_Zpower radix2 127) by lia. rewrite pow_IZR. apply IZR_le. apply Z.leb_le. reflexivity. }
  eexists. exists e. split; [reflexivity|]. split; [exact Q1|]. split; [unfold e24 in He; assert (P24 : 2 ^ 24 = 16777216) by (rewrite pow_IZR; reflexivity); rewrite P24; lra|].
  unfold value at 1. rewrite Q2. exact Ee.
Qed.
Lemma rates_range : forall f_exp c t t9, good_exp f_exp -> reached f_exp c -> Forall (fun r => 0 <= value r <= 0.1) (cv_rates c) -> finite t -> nth_error (cv_times c) 28 = Some t9 -> 0 <= value t < value t9 ->
  exists D, discount c t = Ret (ROk D) /\ finite D /\ / 2 ^ 18 <= value D <= 1.001 /\ / 2 ^ 40 <= value D <= 2 ^ 40.
Proof.
  intros f_exp c t t9 GE H RR Ft H9 X. destruct (c135_positive f_exp c t t9 GE H RR Ft H9 X) as (D & E & F & B). exists D. split; [exact E|]. split; [exact F|]. split; [exact B|]. split.
  - apply Rle_trans with (2 := proj1 B). apply Rinv_le; [apply pow_lt; lra|apply Rle_pow; [lra|lia]].
  - apply Rle_trans with (2 ^ 1); [lra|apply Rle_pow; [lra|lia]].
Qed.
(** factors chain: from a to b and from b to c is from a to c (rates between 0
    and 10%) *)
Theorem c138_chain : forall f_exp c t1 t2 t3 t9, good_exp f_exp -> reached f_exp c -> Forall (fun r => 0 <= value r <= 0.1) (cv_rates c) -> finite t1 -> finite t2 -> finite t3 ->
  nth_error (cv_times c) 28 = Some t9 -> 0 <= value t1 -> value t1 <= value t2 -> value t2 <= value t3 -> value t3 < value t9 ->
  exists a b d, discount_between c t1 t2 = Ret (ROk a) /\ discount_between c t2 t3 = Ret (ROk b) /\ discount_between c t1 t3 = Ret (ROk d) /\
    0 < value d /\ Rabs (value a * value b - value d) <= value d * (4 / 2 ^ 24).
Proof.
  intros f_exp c t1 t2 t3 t9 GE H RR F1 F2 F3 H9 L0 L1 L2 L3.
  destruct (rates_range f_exp c t1 t9 GE H RR F1 H9 ltac:(lra)) as (D1 & E1 & G1 & B1 & C1). destruct (rates_range f_exp c t2 t9 GE H RR F2 H9 ltac:(lra)) as (D2 & E2 & G2 & B2 & C2).
  destruct (rates_range f_exp c t3 t9 GE H RR F3 H9 ltac:(lra)) as (D3 & E3 & G3 & B3 & C3).
  destruct (c138_quotient c t1 t2 D1 D2 F1 F2 L1 E1 E2 G1 G2 C1 C2) as (a & e1 & A1 & _ & X1 & V1).
  destruct (c138_quotient c t2 t3 D2 D3 F2 F3 L2 E2 E3 G2 G3 C2 C3) as (b & e2 & A2 & _ & X2 & V2).
  destruct (c138_quotient c t1 t3 D1 D3 F1 F3 ltac:(lra) E1 E3 G1 G3 C1 C3) as (d & e3 & A3 & _ & X3 & V3).
  exists a, b, d. split; [exact A1|]. split; [exact A2|]. split; [exact A3|]. rewrite V1, V2, V3.
  assert (P24 : 2 ^ 24 = 16777216) by (rewrite pow_IZR; reflexivity). assert (P18 : 2 ^ 18 = 262144) by (rewrite pow_IZR; reflexivity). rewrite P24 in *. rewrite P18 in *.
  set (q := value D3 / value D1). assert (Q : 0 < q) by (unfold q; apply Rmult_lt_0_compat; [lra|apply Rinv_0_lt_compat; lra]).
  replace (value D2 / value D1 * (1 + e1) * (value D3 / value D2 * (1 + e2))) with (q * ((1 + e1) * (1 + e2))) by (unfold q; field; lra).
  apply Rabs_le_inv in X1. apply Rabs_le_inv in X2. apply Rabs_le_inv in X3. split; [apply Rmult_lt_0_compat; lra|].
  assert (X12 : - / 1000000 <= e1 * e2 * 16777216 <= / 1000000).
  { assert (B : Rabs (e1 * e2) <= / 16777216 * / 16777216) by (rewrite Rabs_mult; apply Rmult_le_compat; try apply Rabs_pos; apply Rabs_le; lra). apply Rabs_le_inv in B. lra. }
  replace (q * ((1 + e1) * (1 + e2)) - q * (1 + e3)) with (q * (e1 + e2 - e3 + e1 * e2)) by ring. rewrite Rabs_mult, (Rabs_pos_eq q) by lra. rewrite Rmult_assoc. apply Rmult_le_compat_l; [lra|].
  apply Rabs_le. lra.
Qed.

(** ** C139: forward rates *)
Lemma lit_values : finite lit_1e_6 /\ value lit_1e_6 <= / 2 ^ 19.
Proof.
  split; [vm_compute; reflexivity|]. set (p := @B754_finite 24 128 false 8388608 (-42) eq_refl).
  assert (L : glt lit_1e_6 p = true) by (vm_compute; reflexivity).
  assert (F : is_finite lit_1e_6 = true) by (vm_compute; reflexivity).
  pose proof (proj1 (fin_lt 24 128 lit_1e_6 p _ _ (fin_of _ F) (fin_of p eq_refl)) L) as H. unfold value. unfold real_of in H. left. apply Rlt_le_trans with (1 := H).
  unfold p. cbn -[IZR]. unfold F2R. cbn -[IZR]. lra.
Qed.
Lemma tau_ok : forall t1 t2, finite t1 -> finite t2 -> 0 <= value t1 -> value t1 + / 2 ^ 18 <= value t2 -> value t2 <= 101 ->
  (exists e, fn (gsub t2 t1) ((value t2 - value t1) * (1 + e)) /\ Rabs e <= e24) /\ o_gt fcmp (Babs (gsub t2 t1)) lit_1e_6 = true.
Proof.
  intros t1 t2 F1 F2 B0 B1 B2. destruct (sub_err t2 t1 _ _ (fin_of t2 F2) (fin_of t1 F1)) as (v & e & Fv & He & Ev).
  { unfold real_of. unfold value in *. apply two100_127. pose proof two100_pos. assert (0 < / 2 ^ 18) by (apply Rinv_0_lt_compat; apply pow_lt; lra). rewrite Rabs_pos_eq by lra. lra. }
  unfold real_of in Ev. fold (value t1) in Ev. fold (value t2) in Ev. split; [exists e; rewrite <- Ev; auto|].
  destruct lit_values as [FL VL]. assert (P18 : 2 ^ 18 = 262144) by (rewrite pow_IZR; reflexivity). assert (P19 : 2 ^ 19 = 524288) by (rewrite pow_IZR; reflexivity). rewrite P18 in B1. rewrite P19 in VL.
  assert (V : / 262144 * 0.9 <= v).
  { rewrite Ev. apply Rabs_le_inv in He. unfold e24 in He. apply Rmult_le_compat; lra. }
  assert (LT : lt fcmp lit_1e_6 (Babs (gsub t2 t1))).
  { apply flt_finite; [exact FL|rewrite is_finite_Babs; exact (proj1 Fv)|]. rewrite B2R_Babs, (proj2 Fv), Rabs_pos_eq by lra. unfold value in VL. lra. }
  unfold o_gt, lt, fcmp in *. rewrite Bcompare_swap, LT. reflexivity.
Qed.
Lemma forward_far : forall f_ln c t1 t2 k d, o_gt fcmp (Babs (gsub t2 t1)) lit_1e_6 = true -> finite t1 -> finite t2 -> value t1 <= value t2 -> discount_between c t1 t2 = Ret (ROk d) ->
  forward f_ln c t1 t2 k = Ret (ROk match k with CSimple => gdiv (gsub (gof_Z 1) d) (gsub t2 t1) | CContinuous => gdiv (gneg (f_ln d)) (gsub t2 t1) end).
Proof. intros f_ln c t1 t2 k d G F1 F2 L E. unfold forward. rewrite le_true by assumption. rewrite G, E. reflexivity. Qed.
Lemma ratio_close : forall X t e1 e2 e3 k t3, 0 < t -> 0 <= k <= 4 -> Rabs e1 <= k * e24 -> Rabs e2 <= e24 -> Rabs e3 <= e24 -> Rabs t3 <= tiny ->
  Rabs (X * (1 + e1) / (t * (1 + e2)) * (1 + e3) + t3 - X / t) <= Rabs (X / t) * ((k + 2.1) * e24) + tiny.
Proof.
  intros X t e1 e2 e3 k t3 Pt Hk H1 H2 H3 H4. destruct (err_inv e2 H2) as (i2 & I2 & E2). destruct (err_mul k 1.001 e1 i2) as (z & Z & Ez); try lra.
  destruct (err_mul (k + 1.001 + / 1000) 1 z e3) as (w & W & Ew); try lra.
  assert (D2 : 1 + e2 <> 0) by (apply Rabs_le_inv in H2; unfold e24 in H2; lra).
  replace (X * (1 + e1) / (t * (1 + e2)) * (1 + e3)) with (X / t * (1 + w)).
  - replace (X / t * (1 + w) + t3 - X / t) with (X / t * w + t3) by ring. apply Rle_trans with (1 := Rabs_triang _ _). apply Rplus_le_compat; [|exact H4].
    rewrite Rabs_mult. apply Rmult_le_compat_l; [apply Rabs_pos|]. apply Rle_trans with (1 := W). pose proof e24_pos. apply Rmult_le_compat_r; lra.
  - rewrite <- Ew, <- Ez, <- E2. field. split; [exact D2|lra].
Qed.
Lemma tiny_eq : tiny <= / 2 ^ 149.
Proof. unfold tiny. replace (/ 2 ^ 149) with (bpow radix2 (-149)); [apply bpow_le; lia|]. change (-149)%Z with (- (149))%Z. rewrite bpow_opp. f_equal. rewrite pow_IZR. reflexivity. Qed.
Lemma between_value : forall f_exp c t1 t2 t9, good_exp f_exp -> reached f_exp c -> Forall (fun r => 0 <= value r <= 0.1) (cv_rates c) -> finite t1 -> finite t2 ->
  nth_error (cv_times c) 28 = Some t9 -> 0 <= value t1 -> value t1 <= value t2 -> value t2 < value t9 -> exists d, discount_between c t1 t2 = Ret (ROk d) /\ finite d /\ / 2 ^ 19 <= value d <= 2 ^ 19.
Proof.
  intros f_exp c t1 t2 t9 GE H RR F1 F2 H9 L0 L1 L2.
  destruct (rates_range f_exp c t1 t9 GE H RR F1 H9 ltac:(lra)) as (D1 & E1 & G1 & B1 & C1). destruct (rates_range f_exp c t2 t9 GE H RR F2 H9 ltac:(lra)) as (D2 & E2 & G2 & B2 & C2).
  destruct (c138_quotient c t1 t2 D1 D2 F1 F2 L1 E1 E2 G1 G2 C1 C2) as (a & e1 & A1 & Fa & X1 & V1). exists a. split; [exact A1|]. split; [exact Fa|]. rewrite V1.
  assert (P24 : 2 ^ 24 = 16777216) by (rewrite pow_IZR; reflexivity). assert (P18 : 2 ^ 18 = 262144) by (rewrite pow_IZR; reflexivity). assert (P19 : 2 ^ 19 = 524288) by (rewrite pow_IZR; reflexivity). rewrite P24, P18, P19 in *.
  apply Rabs_le_inv in X1.
  assert (I1 : / 1.001 <= / value D1 <= 262144) by (split; [apply Rinv_le; lra|rewrite <- (Rinv_inv 262144); apply Rinv_le; lra]).
  assert (Q : / 262144 * / 1.001 <= value D2 / value D1 <= 1.001 * 262144) by (split; apply Rmult_le_compat; lra).
  split; [apply Rle_trans with (/ 262144 * / 1.001 * 0.999); [lra|]|apply Rle_trans with (1.001 * 262144 * 1.001); [|lra]]; apply Rmult_le_compat; lra.
Qed.
(** REFUTED: the rate returned as simple is not (1/d - 1)/tau but d times that,
    where d is the factor between the two times *)
Theorem c139_simple_refuted : forall f_exp f_ln c t1 t2 t9, good_exp f_exp -> reached f_exp c -> Forall (fun r => 0 <= value r <= 0.1) (cv_rates c) -> finite t1 -> finite t2 ->
  nth_error (cv_times c) 28 = Some t9 -> 0 <= value t1 -> value t1 + / 2 ^ 18 <= value t2 -> value t2 < value t9 ->
  exists d y, discount_between c t1 t2 = Ret (ROk d) /\ 0 < value d /\ forward f_ln c t1 t2 CSimple = Ret (ROk y) /\ finite y /\
    let simple := (/ value d - 1) / (value t2 - value t1) in Rabs (value y - value d * simple) <= Rabs (value d * simple) * (4 / 2 ^ 24) + / 2 ^ 149.
Proof.
  intros f_exp f_ln c t1 t2 t9 GE H RR F1 F2 H9 L0 L1 L2. assert (P18 : 0 < / 2 ^ 18) by (apply Rinv_0_lt_compat; apply pow_lt; lra).
  destruct (between_value f_exp c t1 t2 t9 GE H RR F1 F2 H9 L0 ltac:(lra) L2) as (d & Ed & Fd & Bd).
  destruct (so_last _ c (reached_sound _ c H)) as (t9' & H9' & B9). assert (t9' = t9) by congruence. subst t9'.
  destruct (tau_ok t1 t2 F1 F2 L0 L1 ltac:(lra)) as [(e2 & FT & He2) GT].
  assert (P19 : 2 ^ 19 = 524288) by (rewrite pow_IZR; reflexivity). rewrite P19 in Bd.
  exists d. eexists. split; [exact Ed|]. split; [lra|]. split; [exact (forward_far f_ln c t1 t2 CSimple d GT F1 F2 ltac:(lra) Ed)|].
  pose proof two100_pos as T1. destruct (sub_err (gof_Z 1) d _ _ one_fn (fin_of d Fd)) as (v & e1 & Fv & He1 & Ev).
  { apply two100_127. unfold real_of. fold (value d). apply Rle_trans with 524288; [apply Rabs_le; lra|]. apply Rle_trans with (1000 * 1000000); [lra|]. apply Rmult_le_compat_r; lra. }
  unfold real_of in Ev. fold (value d) in Ev. set (tau := value t2 - value t1) in *. assert (PT : / 262144 <= tau) by (assert (Q18 : 2 ^ 18 = 262144) by (rewrite pow_IZR; reflexivity); rewrite Q18 in L1; unfold tau; lra).
  assert (K2 : 0.999 <= 1 + e2 <= 1.001) by (apply Rabs_le_inv in He2; unfold e24 in He2; lra). assert (K1 : 0.999 <= 1 + e1 <= 1.001) by (apply Rabs_le_inv in He1; unfold e24 in He1; lra).
  assert (PD : 0 < tau * (1 + e2)) by (apply Rmult_lt_0_compat; lra).
  destruct (div_err _ _ _ _ Fv FT ltac:(lra)) as (q & e3 & t3 & Fq & He3 & Ht3 & Eq).
  { apply two100_127. unfold Rdiv. rewrite Rabs_mult, Rabs_inv, (Rabs_pos_eq (tau * (1 + e2))) by lra. apply Rle_trans with (600000 * 600000); [|apply Rle_trans with (1000 * 1000000 * 1000); [lra|]].
    - apply Rmult_le_compat; [apply Rabs_pos|left; apply Rinv_0_lt_compat; exact PD| |].
      + rewrite Ev, Rabs_mult. apply Rle_trans with (524288 * 1.001); [apply Rmult_le_compat; try apply Rabs_pos; apply Rabs_le; lra|lra].
      + rewrite <- (Rinv_inv 600000). apply Rinv_le; [lra|]. apply Rle_trans with (/ 262144 * 0.999); [lra|]. apply Rmult_le_compat; lra.
    - assert (1000 * 1000 <= two100) by (unfold two100; rewrite <- mult_IZR; apply IZR_le; apply Z.leb_le; reflexivity). lra. }
  split; [exact (proj1 Fq)|]. cbv zeta. unfold value at 1. rewrite (proj2 Fq), Eq, Ev.
  replace (value d * ((/ value d - 1) / tau)) with ((1 - value d) / tau) by (field; lra).
  apply Rle_trans with (1 := ratio_close (1 - value d) tau e1 e2 e3 1 t3 ltac:(lra) ltac:(lra) ltac:(lra) He2 He3 Ht3).
  apply Rplus_le_compat; [|exact tiny_eq]. apply Rmult_le_compat_l; [apply Rabs_pos|]. assert (P24 : 2 ^ 24 = 16777216) by (rewrite pow_IZR; reflexivity). rewrite P24. unfold e24. lra.
Qed.
(** the continuous rate is - ln d / tau *)
Theorem c139_continuous : forall f_exp f_ln c t1 t2 t9, good_exp f_exp -> good_ln f_ln -> reached f_exp c -> Forall (fun r => 0 <= value r <= 0.1) (cv_rates c) -> finite t1 -> finite t2 ->
  nth_error (cv_times c) 28 = Some t9 -> 0 <= value t1 -> value t1 + / 2 ^ 18 <= value t2 -> value t2 < value t9 ->
  exists d y, discount_between c t1 t2 = Ret (ROk d) /\ 0 < value d /\ forward f_ln c t1 t2 CContinuous = Ret (ROk y) /\ finite y /\
    let rate := - ln (value d) / (value t2 - value t1) in Rabs (value y - rate) <= Rabs rate * (8 / 2 ^ 24) + / 2 ^ 149.
Proof.
  intros f_exp f_ln c t1 t2 t9 GE GL H RR F1 F2 H9 L0 L1 L2. assert (P18 : 0 < / 2 ^ 18) by (apply Rinv_0_lt_compat; apply pow_lt; lra).
  destruct (between_value f_exp c t1 t2 t9 GE H RR F1 F2 H9 L0 ltac:(lra) L2) as (d & Ed & Fd & Bd).
  destruct (so_last _ c (reached_sound _ c H)) as (t9' & H9' & B9). assert (t9' = t9) by congruence. subst t9'.
  destruct (tau_ok t1 t2 F1 F2 L0 L1 ltac:(lra)) as [(e2 & FT & He2) GT].
  assert (P19 : 2 ^ 19 = 524288) by (rewrite pow_IZR; reflexivity). rewrite P19 in Bd.
  exists d. eexists. split; [exact Ed|]. split; [lra|]. split; [exact (forward_far f_ln c t1 t2 CContinuous d GT F1 F2 ltac:(lra) Ed)|].
  destruct (GL d Fd ltac:(lra)) as [Fl El].
  assert (EX : exists e1, value (f_ln d) = ln (value d) * (1 + e1) /\ Rabs e1 <= 4 * e24).
  { assert (P22 : 2 ^ 22 = 4194304) by (rewrite pow_IZR; reflexivity). rewrite P22 in El. destruct (Req_dec (ln (value d)) 0) as [Z|N].
    - exists 0. rewrite Z in *. rewrite Rabs_R0, Rminus_0_r in El. assert (Q : Rabs (value (f_ln d)) <= 0) by lra. assert (value (f_ln d) = 0) by (destruct (Req_dec (value (f_ln d)) 0) as [|NN]; [assumption|pose proof (Rabs_pos_lt _ NN); lra]).
      split; [lra|]. rewrite Rabs_R0. pose proof e24_pos. lra.
    - exists ((value (f_ln d) - ln (value d)) / ln (value d)). split; [field; exact N|]. unfold Rdiv. rewrite Rabs_mult, Rabs_inv. pose proof (Rabs_pos_lt _ N).
      apply Rmult_le_reg_r with (Rabs (ln (value d))); [assumption|]. rewrite Rmult_assoc, Rinv_l by lra. unfold e24. lra. }
  destruct EX as (e1 & Ev & He1).
  assert (BL : Rabs (ln (value d)) <= 1000000).
  { assert (A : forall x, 0 < x -> ln x <= x) by (intros x P; apply exp_le_inv'; rewrite exp_ln by exact P; pose proof (exp_ineq1_le x); lra).
    pose proof (A (value d) ltac:(lra)) as A1. pose proof (A (/ value d) ltac:(apply Rinv_0_lt_compat; lra)) as A2. rewrite ln_Rinv in A2 by lra.
    assert (/ value d <= 524288) by (rewrite <- (Rinv_inv 524288); apply Rinv_le; lra). apply Rabs_le. lra. }
  set (tau := value t2 - value t1) in *. assert (PT : / 262144 <= tau) by (assert (Q18 : 2 ^ 18 = 262144) by (rewrite pow_IZR; reflexivity); rewrite Q18 in L1; unfold tau; lra).
  assert (K2 : 0.999 <= 1 + e2 <= 1.001) by (apply Rabs_le_inv in He2; unfold e24 in He2; lra). assert (K1 : 0.999 <= 1 + e1 <= 1.001) by (apply Rabs_le_inv in He1; unfold e24 in He1; lra).
  assert (PD : 0 < tau * (1 + e2)) by (apply Rmult_lt_0_compat; lra).
  assert (FN : fn (gneg (f_ln d)) (- ln (value d) * (1 + e1))).
  { replace (- ln (value d) * (1 + e1)) with (- value (f_ln d)) by (rewrite Ev; ring). apply (fin_neg 24 128). exact (fin_of _ Fl). }
  pose proof two100_pos as T1.
  destruct (div_err _ _ _ _ FN FT ltac:(lra)) as (q & e3 & t3 & Fq & He3 & Ht3 & Eq).
  { apply two100_127. unfold Rdiv. rewrite Rabs_mult, Rabs_inv, (Rabs_pos_eq (tau * (1 + e2))) by lra. apply Rle_trans with (2000000 * 600000); [|apply Rle_trans with (1000 * 1000000 * 10000); [lra|]].
    - apply Rmult_le_compat; [apply Rabs_pos|left; apply Rinv_0_lt_compat; exact PD| |].
      + rewrite Rabs_mult, Rabs_Ropp. apply Rle_trans with (1000000 * 1.001); [apply Rmult_le_compat; try apply Rabs_pos; [exact BL|apply Rabs_le; lra]|lra].
      + rewrite <- (Rinv_inv 600000). apply Rinv_le; [lra|]. apply Rle_trans with (/ 262144 * 0.999); [lra|]. apply Rmult_le_compat; lra.
    - assert (1000 * 10000 <= two100) by (unfold two100; rewrite <- mult_IZR; apply IZR_le; apply Z.leb_le; reflexivity). lra. }
  split; [exact (proj1 Fq)|]. cbv zeta. unfold value at 1. rewrite (proj2 Fq), Eq.
  apply Rle_trans with (1 := ratio_close (- ln (value d)) tau e1 e2 e3 4 t3 ltac:(lra) ltac:(lra) He1 He2 He3 Ht3).
  apply Rplus_le_compat; [|exact tiny_eq]. apply Rmult_le_compat_l; [apply Rabs_pos|]. assert (P24 : 2 ^ 24 = 16777216) by (rewrite pow_IZR; reflexivity). rewrite P24. unfold e24. lra.
Qed.
(** REFUTED: over no time at all there is never a number *)
Theorem c139_same_refuted : forall f_ln c t k y, finite t -> forward f_ln c t t k = Ret (ROk y) -> is_finite y = false.
Proof.
  intros f_ln c t k y Ft E. unfold forward in E. rewrite le_true in E by (try assumption; lra). destruct (same_sub t t Ft Ft eq_refl) as [F0 V0].
  destruct (if o_gt _ _ _ then _ else _) as [[d|]| |]; cbn [rbind] in E; try discriminate E.
  destruct k.
  - pose proof (div_zero (gsub (gof_Z 1) d) _ F0 V0) as Q. congruence.
  - pose proof (div_zero (gneg (f_ln d)) _ F0 V0) as Q. congruence.
Qed.
(** REFUTED: between times less than 2^-20 apart the growth until 1e-5 later is
    divided by the shorter time *)
Theorem c139_short_refuted : forall f_ln c t1 t2 d, finite t1 -> finite t2 -> value t1 <= value t2 <= value t1 + / 2 ^ 20 -> Rabs (value t1) <= 1000 ->
  discount_between c t1 (gadd t2 lit_1e_5) = Ret (ROk d) -> forward f_ln c t1 t2 CSimple = Ret (ROk (gdiv (gsub (gof_Z 1) d) (gsub t2 t1))).
Proof.
  intros f_ln c t1 t2 d F1 F2 L B E. unfold forward. rewrite le_true by (try assumption; lra).
  assert (P20 : 2 ^ 20 = 1048576) by (rewrite pow_IZR; reflexivity). rewrite P20 in L. apply Rabs_le_inv in B.
  destruct (sub_err t2 t1 _ _ (fin_of t2 F2) (fin_of t1 F1)) as (v & e & Fv & He & Ev).
  { apply two100_127. pose proof two100_pos. unfold real_of. fold (value t1) (value t2). apply Rle_trans with 1; [apply Rabs_le; lra|lra]. }
  unfold real_of in Ev. fold (value t1) (value t2) in Ev. apply Rabs_le_inv in He. unfold e24 in He.
  assert (V : 0 <= v <= / 1048576 * 1.0001) by (rewrite Ev; split; [apply Rmult_le_pos; lra|apply Rmult_le_compat; lra]).
  assert (GT : o_gt fcmp (Babs (gsub t2 t1)) lit_1e_6 = false); [|rewrite GT, E; reflexivity].
  set (p := @B754_finite 24 128 false 8389508 (-43) eq_refl).
  assert (FL : is_finite lit_1e_6 = true) by (vm_compute; reflexivity).
  assert (LP : glt p lit_1e_6 = true) by (vm_compute; reflexivity).
  pose proof (proj1 (fin_lt 24 128 p lit_1e_6 _ _ (fin_of p eq_refl) (fin_of _ FL)) LP) as H. unfold real_of in H.
  assert (VP : / 1048576 * 1.0001 <= B2R p) by (unfold p; cbn -[IZR]; unfold F2R; cbn -[IZR]; lra).
  assert (LT : lt fcmp (Babs (gsub t2 t1)) lit_1e_6).
  { apply flt_finite; [rewrite is_finite_Babs; exact (proj1 Fv)|exact FL|]. rewrite B2R_Babs, (proj2 Fv), Rabs_pos_eq by lra. lra. }
  unfold o_gt. unfold lt in LT. rewrite LT. reflexivity.
Qed.
(** errors *)
Theorem c139_errors : forall f_ln c t1 t2 k eval d1 d2,
  (finite t1 -> finite t2 -> value t2 < value t1 -> forward f_ln c t1 t2 k = Ret RErr) /\
  ((instant d2 < instant d1)%Z -> forward_dates f_ln eval c d1 d2 k = Ret RErr) /\ ((instant d2 < instant eval)%Z -> forward_from f_ln eval c d2 k = Ret RErr).
Proof.
  intros f_ln c t1 t2 k eval d1 d2. split; [|split].
  - intros F1 F2 L. unfold forward. replace (o_le fcmp t1 t2) with false; [reflexivity|]. symmetry.
    assert (LT : lt fcmp t2 t1) by (apply flt_finite; assumption). unfold lt, fcmp in LT. rewrite Bcompare_swap in LT.
    unfold o_le, fcmp. destruct (Bcompare t1 t2) as [[]|]; cbn in LT; try discriminate LT; reflexivity.
  - intro L. unfold forward_dates. rewrite (proj2 (Z.ltb_lt _ _) L). reflexivity.
  - intro L. unfold forward_from. rewrite (proj2 (Z.ltb_lt _ _) L). reflexivity.
Qed.
(** dates in order: the rate between their times from the evaluation date *)
Theorem c139_dates : forall f_ln eval c d1 d2 k t1 t2, (instant d1 <= instant d2)%Z -> get_time_difference eval d1 = Ret t1 -> get_time_difference eval d2 = Ret t2 ->
  forward_dates f_ln eval c d1 d2 k = forward f_ln c t1 t2 k.
Proof. intros f_ln eval c d1 d2 k t1 t2 L E1 E2. unfold forward_dates. rewrite (proj2 (Z.ltb_ge _ _) L), E1, E2. reflexivity. Qed.
Lemma flat_rates : forall f_exp eval data z c, vd_value data = [z] -> curve_new f_exp eval data = Ret (ROk c) -> cv_rates c = repeat z (List.length (cv_times c)).
Proof.
  intros f_exp eval data z c V E. unfold curve_new in E. rewrite V in E. destruct (negb _); [discriminate E|]. cbn [rbind] in E.
  destruct (curve_times eval) as [ts| |]; cbn [obind] in E; try discriminate E. cbn [rates_at rbind constant_vectorized] in E.
  destruct (linear_new ts _ XNone false) as [[l|]| |]; cbn [rbind] in E; try discriminate E. injection E as <-. reflexivity.
Qed.
Lemma flat_nth : forall (z r : f32) n i, nth_error (repeat z n) i = Some r -> r = z.
Proof. intros z r n i H. apply nth_error_In in H. apply repeat_spec in H. exact H. Qed.
Lemma ln_1p : forall x, Rabs x <= / 1000 -> Rabs (ln (1 + x)) <= 1.01 * Rabs x.
Proof.
  intros x H. apply Rabs_le_inv in H.
  assert (U : ln (1 + x) <= x) by (apply exp_le_inv'; rewrite exp_ln by lra; apply exp_ineq1_le).
  assert (L : x / (1 + x) <= ln (1 + x)).
  { assert (Q : ln (/ (1 + x)) <= / (1 + x) - 1) by (apply exp_le_inv'; rewrite exp_ln by (apply Rinv_0_lt_compat; lra); pose proof (exp_ineq1_le (/ (1 + x) - 1)); lra).
    rewrite ln_Rinv in Q by lra. replace (x / (1 + x)) with (1 - / (1 + x)) by (field; lra). lra. }
  assert (I : / 1.001 <= / (1 + x) <= / 0.999) by (split; apply Rinv_le; lra).
  assert (XQ : Rabs (x / (1 + x)) <= 1.01 * Rabs x).
  { unfold Rdiv. rewrite Rabs_mult, Rmult_comm. apply Rmult_le_compat_r; [apply Rabs_pos|]. rewrite Rabs_pos_eq; lra. }
  apply Rabs_le_inv in XQ. pose proof (Rle_abs x). assert (0 <= Rabs x) by apply Rabs_pos. apply Rabs_le. lra.
Qed.
(** a flat curve gives its rate back *)
Theorem c139_flat : forall f_exp f_ln y m d ns off data z i w, good_exp f_exp -> good_ln f_ln -> civil_ok y m d ns -> (y + 100 <= 9999)%Z -> (-93599 <= off <= 93599)%Z ->
  vd_value data = [z] -> List.length (vd_times data) = 1%nat -> finite z -> 0 <= value z <= 0.1 -> (1 <= i < 28)%nat -> nth_error grid i = Some w ->
  exists c n t F, curve_new f_exp (civil y m d ns off) data = Ret (ROk c) /\ walked w (day_number y m d) n /\ get_time_difference (civil y m d ns off) (Odt n ns off) = Ret t /\ 0 < value t /\
    forward_from f_ln (civil y m d ns off) c (Odt n ns off) CContinuous = Ret (ROk F) /\ finite F /\ Rabs (value F - value z) <= (1 + value t) / value t / 2 ^ 20.
Proof.
  intros f_exp f_ln y m d ns off data z i w GE GL C R O V LT Fz Bz I Hw.
  assert (GR : good_rates (vd_times data) (vd_value data)).
  { rewrite V. split; [exact LT|]. split; [|left; reflexivity]. apply Forall_cons; [|apply Forall_nil]. split; [exact Fz|]. rewrite Rabs_pos_eq; lra. }
  destruct (new_sound f_exp y m d ns off data C R O GR) as (c & E & S & M & _). pose proof (re_new f_exp y m d ns off data c C R O GR E) as RC.
  pose proof (flat_rates f_exp _ _ _ _ V E) as FR. rewrite (so_29 _ c S) in FR.
  destruct (nth_error (cv_times c) i) as [t|] eqn:Ht; [|apply nth_error_None in Ht; rewrite (so_29 _ c S) in Ht; lia].
  destruct (times_range f_exp c S i t Ht) as [Ft Bt]. destruct (ends f_exp c S) as (t0 & t9 & H0 & V0 & F0 & H9 & V9 & F9 & _).
  destruct (forall2_nth _ _ _ _ _ M i w t Hw Ht) as (n & W & ET).
  pose proof (rises_lt _ (so_rises _ c S) 0 i t0 t ltac:(lia) H0 Ht) as T0. pose proof (rises_lt _ (so_rises _ c S) i 28 t t9 ltac:(lia) Ht H9) as T9.
  destruct (knot f_exp c i t t GE S ltac:(lia) Ht Ft eq_refl) as (r & D & Hr & ED & FD & _ & A & _). rewrite FR in Hr. apply flat_nth in Hr. subst r.
  destruct (c132_zero (civil y m d ns off)) as (x0 & EX & FX & VX). destruct (c134_one f_exp c x0 GE RC FX VX) as (D0 & ED0 & FD0 & VD0).
  assert (RR : Forall (fun r => 0 <= value r <= 0.1) (cv_rates c)) by (rewrite FR; apply List.Forall_forall; intros q Q; apply repeat_spec in Q; subst q; exact Bz).
  assert (P18 : 2 ^ 18 = 262144) by (rewrite pow_IZR; reflexivity). assert (P19 : 2 ^ 19 = 524288) by (rewrite pow_IZR; reflexivity).
  assert (P20 : 2 ^ 20 = 1048576) by (rewrite pow_IZR; reflexivity). assert (P21 : 2 ^ 21 = 2097152) by (rewrite pow_IZR; reflexivity). assert (P24 : 2 ^ 24 = 16777216) by (rewrite pow_IZR; reflexivity).
  destruct (c139_continuous f_exp f_ln c x0 t t9 GE GL RC RR FX Ft H9 ltac:(lra) ltac:(rewrite P18; lra) ltac:(lra)) as (dd & F & EB & Pd & EF & FF & AF).
  exists c, n, t, F. split; [exact E|]. split; [exact W|]. split; [exact ET|]. split; [lra|]. split; [|split; [exact FF|]].
  - unfold forward_from. assert (NB : (instant (civil y m d ns off) <= instant (Odt n ns off))%Z).
    { destruct (Z.le_gt_cases (day_number y m d) n) as [Q|Q]; [unfold instant, civil; cbn [od_day od_ns od_off]; unfold day_ns; lia|]. exfalso.
      assert (YN : forall q, in_the_year q n -> (q < y)%Z -> False).
      { intros q Yq Lq. pose proof (c95_earlier_year_refuted (civil y m d ns off) (Odt n ns off) y q (proj2 (eval_ok _ _ _ _ _ C R O)) Yq Lq) as EZ. rewrite EZ in ET. injection ET as <-. unfold value in T0. cbn in T0. unfold value in V0. lra. }
      pose proof (date_year_mono n (day_number y m d) ltac:(lia)) as DM. assert (YY : in_the_year (date_year n) n) by (apply year_of_day; reflexivity).
      pose proof (proj2 (eval_ok _ _ _ _ _ C R O)) as YE. pose proof YE as YE'. apply year_of_day in YE'. cbn [od_day civil] in YE'. rewrite YE' in DM.
      destruct (Z.eq_dec (date_year n) y) as [EY|NY]; [|apply (YN _ YY); lia]. rewrite EY in YY.
      assert (OK : odt_ok (Odt n ns off)).
      { destruct (eval_ok _ _ _ _ _ C R O) as ((OR & OW & OO) & _). unfold odt_ok. cbn [od_day od_ns od_off civil] in *. split; [|split; [exact OW|exact OO]].
        unfold in_the_year in YY. pose proof C as (RY & _). unfold representable_year in RY. unfold in_range in *. apply andb_true_iff in OR. rewrite !Z.leb_le in OR. apply andb_true_iff. rewrite !Z.leb_le.
        split; [|lia]. assert (K : (date_min <= day_number y 1 1)%Z); [|lia].
        apply (n0_range y 1 1 0); [|exact R]. split; [exact (proj1 C)|]. split; [split; [lia|change (month_days y 1) with 31%Z; lia]|unfold day_ns; lia]. }
      destruct (c132_later (civil y m d ns off) (Odt n ns off) (civil y m d ns off) y y y (proj1 (eval_ok _ _ _ _ _ C R O)) OK (proj1 (eval_ok _ _ _ _ _ C R O)) YE YY YE eq_refl eq_refl ltac:(lia) ltac:(lia)) as (u1 & u2 & U1 & U2 & _ & _ & U).
      { unfold instant, civil. cbn [od_day od_ns od_off]. unfold day_ns. lia. }
      rewrite ET in U1. injection U1 as <-. rewrite EX in U2. injection U2 as <-. lra. }
    rewrite (proj2 (Z.ltb_ge _ _) NB). rewrite (c139_dates f_ln _ c _ _ _ x0 t NB EX ET). exact EF.
  - destruct (c138_quotient c x0 t D0 D FX Ft ltac:(lra) ED0 ED FD0 FD) as (dd' & e & EB' & _ & He & Vd).
    { rewrite VD0. split; [apply Rle_trans with (/ 2 ^ 0); [apply Rinv_le; [apply pow_lt; lra|apply Rle_pow; [lra|lia]]|cbn; lra]|apply pow_R1_Rle; lra]. }
    { destruct (rates_range f_exp c t t9 GE RC RR Ft H9 ltac:(lra)) as (D' & ED' & _ & _ & BD). rewrite ED in ED'. injection ED' as <-. exact BD. }
    assert (dd' = dd) by congruence. subst dd'. rewrite VD0 in Vd. cbv zeta in AF. rewrite VX, Rminus_0_r in AF. set (tt := value t) in *. set (zz := value z) in *.
    pose proof (exp_pos (- (zz * tt))) as PX. set (X := exp (- (zz * tt))) in *.
    assert (EX1 : exists e1, value D = X * (1 + e1) /\ Rabs e1 <= (1 + tt) / 2097152).
    { exists ((value D - X) / X). split; [field; lra|]. unfold Rdiv at 1. rewrite Rabs_mult, Rabs_inv, (Rabs_pos_eq X) by lra. apply Rmult_le_reg_r with X; [lra|]. rewrite Rmult_assoc, Rinv_l by lra. rewrite P21 in A. lra. }
    destruct EX1 as (e1 & V1 & H1). rewrite P24 in He.
    assert (EX2 : exists e2, value dd = X * (1 + e2) /\ Rabs e2 <= (1 + tt) / 2097152 + / 16000000).
    { exists (e1 + e + e1 * e). split; [rewrite Vd, V1; field|]. apply Rle_trans with (1 := Rabs_triang _ _). pose proof (Rabs_triang e1 e) as T. rewrite Rabs_mult.
      assert (Rabs e1 * Rabs e <= 0.001 * / 16777216) by (apply Rmult_le_compat; try apply Rabs_pos; lra). lra. }
    destruct EX2 as (e2 & V2 & H2). assert (S2 : Rabs e2 <= / 1000) by lra. pose proof (ln_1p e2 S2) as LN. apply Rabs_le_inv in S2.
    rewrite V2, ln_mult in AF by lra. unfold X in AF. rewrite ln_exp in AF.
    replace (- (- (zz * tt) + ln (1 + e2)) / tt) with (zz - ln (1 + e2) / tt) in AF by (field; lra). set (q := ln (1 + e2) / tt) in *.
    assert (Q : Rabs q <= 1.01 * ((1 + tt) / 2097152 + / 16000000) / tt).
    { unfold q, Rdiv at 1. rewrite Rabs_mult, Rabs_inv, (Rabs_pos_eq tt) by lra. apply Rmult_le_compat_r; [left; apply Rinv_0_lt_compat; lra|]. lra. }
    assert (IT : 1 <= (1 + tt) / tt) by (apply Rmult_le_reg_r with tt; [lra|]; unfold Rdiv; rewrite Rmult_assoc, Rinv_l; lra).
    assert (Q' : Rabs q <= (1 + tt) / tt * 0.00000055).
    { apply Rle_trans with (1 := Q). unfold Rdiv at 1. apply Rle_trans with (1.01 * ((1 + tt) * (/ 2097152 + / 16000000)) * / tt); [|].
      - apply Rmult_le_compat_r; [left; apply Rinv_0_lt_compat; lra|]. lra.
      - replace ((1 + tt) / tt * 0.00000055) with ((1 + tt) * 0.00000055 * / tt) by (unfold Rdiv; ring). apply Rmult_le_compat_r; [left; apply Rinv_0_lt_compat; lra|]. lra. }
    assert (T149 : / 2 ^ 149 <= 0.000000001).
    { apply Rle_trans with (/ 1000000000); [|lra]. apply Rinv_le; [lra|]. rewrite pow_IZR. apply IZR_le. apply Z.leb_le. reflexivity. }
    rewrite P24 in AF. rewrite P20. generalize dependent (/ 2 ^ 149). intros e149 AF T149.
    assert (BQ : Rabs (zz - q) <= 0.1 + (1 + tt) / tt * 0.00000055).
    { pose proof (Rabs_triang zz (- q)) as TT. rewrite Rabs_Ropp, (Rabs_pos_eq zz) in TT by lra. replace (zz + - q) with (zz - q) in TT by ring. lra. }
    replace (value F - zz) with ((value F - (zz - q)) - q) by ring.
    pose proof (Rabs_triang (value F - (zz - q)) (- q)) as TT. rewrite Rabs_Ropp in TT. replace (value F - (zz - q) + - q) with (value F - (zz - q) - q) in TT by ring.
    set (g := (1 + tt) / tt) in *. clearbody g q. lra.
Qed.

(** fifty years at 1/16: the rate called simple is 0.02, the simple rate is 0.4 *)
Theorem c139_fifty_years_refuted : forall f_exp f_ln, good_exp f_exp ->
  exists c t D y, curve_new f_exp ex_eval ex_flat = Ret (ROk c) /\ get_time_difference ex_eval (civil 2074 3 15 (9 * 3600 * 1000000000) (9 * 3600)) = Ret t /\
    discount c t = Ret (ROk D) /\ forward_from f_ln ex_eval c (civil 2074 3 15 (9 * 3600 * 1000000000) (9 * 3600)) CSimple = Ret (ROk y) /\
    0 < value y <= 0.021 /\ 0.3 <= (/ value D - 1) / value t.
Proof.
  intros f_exp f_ln GE. destruct ex_ok as (C & R & O). destruct (new_sound f_exp _ _ _ _ _ ex_flat C R O (proj2 ex_good)) as (c & E & S & M & _).
  pose proof (re_new f_exp _ _ _ _ _ _ c C R O (proj2 ex_good) E) as RC. pose proof (flat_rates f_exp _ ex_flat sixteenth _ eq_refl E) as FR. rewrite (so_29 _ c S) in FR.
  destruct (nth_error (cv_times c) 27) as [t|] eqn:Ht; [|apply nth_error_None in Ht; rewrite (so_29 _ c S) in Ht; lia].
  destruct (times_range f_exp c S 27 t Ht) as [Ft Bt]. destruct (ends f_exp c S) as (t0 & t9 & H0 & V0 & F0 & H9 & V9 & F9 & _).
  destruct (forall2_nth _ _ _ _ _ M 27%nat [Months 600] t eq_refl Ht) as (n & (n1 & (y1 & m1 & d1 & VV & EN & MA) & W) & ET). cbn [walked] in W. subst n1.
  assert (NN : n = day_number 2074 3 15).
  { pose proof (proj1 (date_is _ 2024 3 15 (proj1 (proj2 C))) eq_refl) as (D1 & D2 & D3). pose proof (proj1 (date_is _ y1 m1 d1 VV) EN) as (D4 & D5 & D6).
    replace y1 with 2024%Z in MA by congruence. replace m1 with 3%Z in MA by congruence. replace d1 with 15%Z in MA by congruence.
    destruct MA as (y' & m' & B & EQ & ->). assert (y' = 2074%Z) by lia. assert (m' = 3%Z) by lia. subst y' m'. reflexivity. }
  rewrite NN in ET. fold (civil 2074 3 15 (9 * 3600 * 1000000000) (9 * 3600)) in ET. fold ex_eval in E, ET.
  assert (TB : 49 <= value t <= 51).
  { assert (K : (match get_time_difference ex_eval (civil 2074 3 15 (9 * 3600 * 1000000000) (9 * 3600)) with Ret x => gle (gof_Z 49) x && gle x (gof_Z 51) | _ => false end) = true) by (vm_compute; reflexivity).
    rewrite ET in K. apply andb_true_iff in K. destruct K as [K1 K2]. destruct (small_fin 49 ltac:(lia)) as [Q1 R1]. destruct (small_fin 51 ltac:(lia)) as [Q2 R2].
    rewrite (fin_le 24 128 _ _ _ _ (fin_of _ Q1) (fin_of t Ft)) in K1. rewrite (fin_le 24 128 _ _ _ _ (fin_of t Ft) (fin_of _ Q2)) in K2. rewrite R1 in K1. rewrite R2 in K2. exact (conj K1 K2). }
  destruct (knot f_exp c 27 t t GE S ltac:(lia) Ht Ft eq_refl) as (r & D & Hr & ED & FD & _ & A & _). rewrite FR in Hr. apply flat_nth in Hr. subst r.
  destruct (c132_zero ex_eval) as (x0 & EX & FX & VX). destruct (c134_one f_exp c x0 GE RC FX VX) as (D0 & ED0 & FD0 & VD0). destruct eighth_value as (_ & _ & Fz & Vz).
  assert (RR : Forall (fun r => 0 <= value r <= 0.1) (cv_rates c)) by (rewrite FR; apply List.Forall_forall; intros q Q; apply repeat_spec in Q; subst q; rewrite Vz; lra).
  assert (P18 : 2 ^ 18 = 262144) by (rewrite pow_IZR; reflexivity). assert (P24 : 2 ^ 24 = 16777216) by (rewrite pow_IZR; reflexivity). assert (P21 : 2 ^ 21 = 2097152) by (rewrite pow_IZR; reflexivity).
  destruct (rates_range f_exp c t t9 GE RC RR Ft H9 ltac:(lra)) as (D' & ED' & _ & B18 & BD). rewrite ED in ED'. injection ED' as <-. rewrite P18 in B18.
  destruct (c139_simple_refuted f_exp f_ln c x0 t t9 GE RC RR FX Ft H9 ltac:(lra) ltac:(rewrite P18; lra) ltac:(lra)) as (dd & y & EB & Pd & EF & FF & AF).
  destruct (c138_quotient c x0 t D0 D FX Ft ltac:(lra) ED0 ED FD0 FD) as (dd' & e & EB' & _ & He & Vd).
  { rewrite VD0. split; [apply Rle_trans with (/ 2 ^ 0); [apply Rinv_le; [apply pow_lt; lra|apply Rle_pow; [lra|lia]]|cbn; lra]|apply pow_R1_Rle; lra]. }
  { exact BD. }
  assert (dd' = dd) by congruence. subst dd'. rewrite VD0 in Vd.
  assert (XB : exp (- (value sixteenth * value t)) <= / 17.4).
  { rewrite exp_Ropp. apply Rinv_le; [lra|]. apply Rle_trans with (exp (/ 10) ^ 30).
    - apply Rle_trans with (1.1 ^ 30); [lra|]. apply pow_incr. pose proof (exp_ineq1_le (/ 10)). lra.
    - assert (EE : exp (/ 10) ^ 30 = exp 3) by (rewrite <- (Rpower_pow 30 (exp (/ 10))) by apply exp_pos; unfold Rpower; rewrite ln_exp; f_equal; rewrite INR_IZR_INZ; cbn; lra).
      rewrite EE. left. apply exp_increasing. rewrite Vz. lra. }
  pose proof (exp_pos (- (value sixteenth * value t))) as PX. set (X := exp (- (value sixteenth * value t))) in *. rewrite P21 in A.
  assert (DB : value D <= / 17.3).
  { apply Rabs_le_inv in A. assert (X * ((1 + value t) / 2097152) <= X * 0.001) by (apply Rmult_le_compat_l; lra). lra. }
  exists c, t, D, y. split; [exact E|]. split; [exact ET|]. split; [exact ED|]. split; [|split].
  - unfold forward_from. assert (NB : (instant ex_eval <= instant (civil 2074 3 15 (9 * 3600 * 1000000000) (9 * 3600)))%Z) by (vm_compute; congruence).
    rewrite (proj2 (Z.ltb_ge _ _) NB). rewrite (c139_dates f_ln _ c _ _ _ x0 t NB EX ET). exact EF.
  - cbv zeta in AF. rewrite VX, Rminus_0_r in AF. replace (value dd * ((/ value dd - 1) / value t)) with ((1 - value dd) / value t) in AF by (field; lra).
    rewrite P24 in He. apply Rabs_le_inv in He. replace (value D / 1) with (value D) in Vd by field.
    assert (DD : 0 < value dd <= 0.06) by (split; [exact Pd|]; rewrite Vd; apply Rle_trans with (/ 17.3 * 1.001); [apply Rmult_le_compat; lra|lra]).
    assert (I : / 51 <= / value t <= / 49) by (split; apply Rinv_le; lra).
    assert (Q : 0.94 * / 51 <= (1 - value dd) / value t <= 1 * / 49) by (split; apply Rmult_le_compat; lra).
    rewrite (Rabs_pos_eq ((1 - value dd) / value t)) in AF by lra. rewrite P24 in AF.
    assert (T149 : / 2 ^ 149 <= 0.000000001).
    { apply Rle_trans with (/ 1000000000); [|lra]. apply Rinv_le; [lra|]. rewrite pow_IZR. apply IZR_le. apply Z.leb_le. reflexivity. }
    generalize dependent (/ 2 ^ 149). intros e149 AF T149. apply Rabs_le_inv in AF. set (q := (1 - value dd) / value t) in *. clearbody q. lra.
  - assert (I : / 51 <= / value t) by (apply Rinv_le; lra). assert (ID : 17.3 <= / value D) by (rewrite <- (Rinv_inv 17.3); apply Rinv_le; lra).
    apply Rle_trans with (16.3 * / 51); [lra|]. apply Rmult_le_compat; lra.
Qed.

(** ** C140: bumps *)
(** [time1 < t <= time2], where a missing bound is no bound *)
Definition hit_by (time1 time2 : option f32) (t : f32) : Prop :=
  (forall a, time1 = Some a -> value a < value t) /\ (forall b, time2 = Some b -> value t <= value b).
Lemma hit_iff : forall t1 t2 t, (forall a, t1 = Some a -> finite a) -> (forall b, t2 = Some b -> finite b) -> finite t -> 0 <= value t <= 101 -> hit t1 t2 t = true <-> hit_by t1 t2 t.
Proof.
  intros t1 t2 t F1 F2 Ft B. unfold hit, hit_by.
  assert (LO : is_finite (gof_Z (-99999999) : f32) = true /\ value (gof_Z (-99999999)) < 0).
  { split; [vm_compute; reflexivity|]. assert (Q : glt (gof_Z (-99999999)) (gzero : f32) = true) by (vm_compute; reflexivity).
    assert (QF : is_finite (gof_Z (-99999999) : f32) = true) by (vm_compute; reflexivity). exact (proj1 (fin_lt 24 128 _ _ _ _ (fin_of _ QF) (fin_zero 24 128)) Q). }
  assert (HI : is_finite (gof_Z 99999999 : f32) = true /\ 101 < value (gof_Z 99999999)).
  { split; [vm_compute; reflexivity|]. assert (Q : glt (gof_Z 101) (gof_Z 99999999 : f32) = true) by (vm_compute; reflexivity).
    assert (QF : is_finite (gof_Z 99999999 : f32) = true) by (vm_compute; reflexivity). destruct (small_fin 101 ltac:(lia)) as [F101 R101].
    pose proof (proj1 (fin_lt 24 128 _ _ _ _ (fin_of _ F101) (fin_of _ QF)) Q) as H. rewrite R101 in H. exact H. }
  set (a := match t1 with None => gof_Z (-99999999) | Some t0 => t0 end). set (b := match t2 with None => gof_Z 99999999 | Some t0 => t0 end).
  assert (Fa : finite a) by (unfold a; destruct t1; [apply F1; reflexivity|apply LO]). assert (Fb : finite b) by (unfold b; destruct t2; [apply F2; reflexivity|apply HI]).
  assert (GT : o_gt fcmp t a = true <-> value a < value t).
  { pose proof (flt_finite a t Fa Ft) as Q. unfold lt, fcmp in Q. unfold o_gt, fcmp. rewrite (Bcompare_swap _ _ a t). destruct (Bcompare a t) as [[]|]; cbn [CompOpp]; split; intro K; try discriminate K; try (apply Q in K; discriminate K); try reflexivity. apply Q. reflexivity. }
  assert (LE : o_le fcmp t b = true <-> value t <= value b).
  { pose proof (fle_finite t b Ft Fb) as Q. unfold le, fcmp in Q. unfold o_le, fcmp. destruct (Bcompare t b) as [[]|]; split; intro K; try discriminate K; try reflexivity; try (apply Q; auto; fail); apply Q in K; destruct K as [K|K]; discriminate K. }
  rewrite andb_true_iff, GT, LE. unfold a, b. split.
  - intros [A1 A2]. split; [intros x ->; exact A1|intros x ->; exact A2].
  - intros [A1 A2]. split; [destruct t1 as [x|]; [apply A1; reflexivity|lra]|destruct t2 as [x|]; [apply A2; reflexivity|lra]].
Qed.
(** only the rates of cached times in the interval move, by the bump, and the
    factors follow *)
Theorem c140_bump : forall f_exp c t1 t2 b, reached f_exp c -> (forall x, t1 = Some x -> finite x) -> (forall x, t2 = Some x -> finite x) -> finite b ->
  (forall x y, t1 = Some x -> t2 = Some y -> value x <= value y) -> (forall x, t1 = Some x -> value x <= 1000) -> (forall y, t2 = Some y -> -1000 <= value y) ->
  exists c', bump_times f_exp c t1 t2 b = Ret (ROk tt, c') /\ cv_times c' = cv_times c /\
    forall i t r, nth_error (cv_times c) i = Some t -> nth_error (cv_rates c) i = Some r ->
      exists r', nth_error (cv_rates c') i = Some r' /\ (hit_by t1 t2 t -> r' = gadd r b) /\ (~ hit_by t1 t2 t -> finite r' /\ value r' = value r) /\
        nth_error (cv_factors c') i = Some (f_exp (gneg (gmul r' t))).
Proof.
  intros f_exp c t1 t2 b H F1 F2 Fb O X1 X2. pose proof (reached_sound _ c H) as S. destruct (bump_shape f_exp c t1 t2 b S) as [_ Q].
  destruct Q as (c' & E & T & RR & FF & _).
  - set (x := match t1 with None => gof_Z (-99999999) | Some t => t end). set (y := match t2 with None => gof_Z 99999999 | Some t => t end).
    assert (LO : is_finite (gof_Z (-99999999) : f32) = true /\ value (gof_Z (-99999999)) < -1000).
    { split; [vm_compute; reflexivity|]. assert (Q : glt (gof_Z (-99999999)) (gof_Z (-1000) : f32) = true) by (vm_compute; reflexivity). destruct (small_fin (-1000) ltac:(lia)) as [G1 G2].
      assert (QF : is_finite (gof_Z (-99999999) : f32) = true) by (vm_compute; reflexivity). pose proof (proj1 (fin_lt 24 128 _ _ _ _ (fin_of _ QF) (fin_of _ G1)) Q) as K. rewrite G2 in K. exact K. }
    assert (HI : is_finite (gof_Z 99999999 : f32) = true /\ 1000 < value (gof_Z 99999999)).
    { split; [vm_compute; reflexivity|]. assert (Q : glt (gof_Z 1000) (gof_Z 99999999 : f32) = true) by (vm_compute; reflexivity).
      assert (QF : is_finite (gof_Z 99999999 : f32) = true) by (vm_compute; reflexivity). destruct (small_fin 1000 ltac:(lia)) as [G1 G2].
      pose proof (proj1 (fin_lt 24 128 _ _ _ _ (fin_of _ G1) (fin_of _ QF)) Q) as K. rewrite G2 in K. exact K. }
    assert (Fx : finite x) by (unfold x; destruct t1; [apply F1; reflexivity|apply LO]). assert (Fy : finite y) by (unfold y; destruct t2; [apply F2; reflexivity|apply HI]).
    assert (LE : value x <= value y).
    { unfold x, y. destruct t1 as [u|], t2 as [w|]; [apply O; reflexivity|pose proof (X1 u eq_refl); lra|pose proof (X2 w eq_refl); lra|lra]. }
    apply fle_finite in LE; try assumption. unfold o_gt. destruct LE as [-> | ->]; reflexivity.
  - exists c'. split; [exact E|]. split; [exact T|]. intros i t r Ht Hr. exists (bumped t1 t2 b t r).
    assert (N : nth_error (cv_rates c') i = Some (bumped t1 t2 b t r)).
    { rewrite RR. rewrite (map_nth_error _ i _ (combine_nth _ _ _ _ i r t Hr Ht)). reflexivity. }
    destruct (times_range f_exp c S i t Ht) as [Ft Bt]. pose proof (hit_iff t1 t2 t F1 F2 Ft Bt) as HI.
    pose proof (so_rates _ c S) as SR. rewrite List.Forall_forall in SR. destruct (SR r (nth_error_In _ _ Hr)) as [Fr _].
    split; [exact N|]. split; [|split].
    + intro Q. apply HI in Q. unfold bumped. rewrite Q. f_equal. exact (one_mul b Fb).
    + intro Q. unfold bumped. destruct (hit t1 t2 t); [exfalso; apply Q; apply HI; reflexivity|]. exact (zero_mul_add r b Fr Fb).
    + rewrite FF. apply factors_nth'; assumption.
Qed.
Theorem c140_reversed : forall f_exp c x y b, reached f_exp c -> finite x -> finite y -> value y < value x -> bump_times f_exp c (Some x) (Some y) b = Ret (RErr, c).
Proof.
  intros f_exp c x y b H Fx Fy L. destruct (bump_shape f_exp c (Some x) (Some y) b (reached_sound _ c H)) as [Q _]. apply Q.
  assert (LT : lt fcmp y x) by (apply flt_finite; assumption). unfold lt, fcmp in LT. unfold o_gt, fcmp. rewrite Bcompare_swap, LT. reflexivity.
Qed.
(** bumps by dates are bumps by their times from the evaluation date *)
Theorem c140_dates : forall f_exp eval c d1 d2 b t1 t2, get_time_difference eval d1 = Ret t1 -> get_time_difference eval d2 = Ret t2 ->
  bump_dates f_exp eval c (Some d1) (Some d2) b = bump_times f_exp c (Some t1) (Some t2) b /\
  bump_dates f_exp eval c (Some d1) None b = bump_times f_exp c (Some t1) None b /\
  bump_dates f_exp eval c None (Some d2) b = bump_times f_exp c None (Some t2) b /\
  bump_dates f_exp eval c None None b = bump_times f_exp c None None b.
Proof. intros f_exp eval c d1 d2 b t1 t2 E1 E2. unfold bump_dates. rewrite E1, E2. auto. Qed.

(** ** C141: many points at once *)
Theorem c141_times : forall f_exp c ts, reached f_exp c -> Forall finite ts -> (forall i j a b, (i <= j)%nat -> nth_error ts i = Some a -> nth_error ts j = Some b -> value a <= value b) ->
  exists a, discounts c ts = Ret a /\ pointwise (discount c) ts a.
Proof.
  intros f_exp c ts H F SO. pose proof (reached_sound _ c H) as S. pose proof (so_rises _ c S) as RS. pose proof RS as [FT _].
  apply (c116_same (cv_times c) (cv_factors c) XNone false (cv_disc c) ts (so_disc _ c S) (finite_numbers _ FT) (rises_sorted _ RS)); [rewrite (so_29 _ c S); lia|exact (finite_numbers _ F)|].
  intros i j a b L Ha Hb. rewrite List.Forall_forall in F. apply fle_finite; [exact (F a (nth_error_In _ _ Ha))|exact (F b (nth_error_In _ _ Hb))|]. apply (SO i j a b); [lia|exact Ha|exact Hb].
Qed.
Theorem c141_dates : forall eval c ds a, discounts_at eval c ds = Ret a -> pointwise (discount_at eval c) ds a.
Proof. intros eval c ds a E. apply map_res_pointwise. exact E. Qed.
Theorem c141_short_date : forall f_ln eval c d t, get_time_difference eval d = Ret t -> short_rate_from f_ln eval c d = forward f_ln c t (gadd t lit_day) CSimple.
Proof. intros f_ln eval c d t E. unfold short_rate_from. rewrite E. reflexivity. Qed.
Theorem c141_short_rates : forall f_ln c ts a, short_rates f_ln c ts = Ret a -> pointwise (fun t => forward f_ln c t (gadd t lit_day) CSimple) ts a.
Proof. intros f_ln c ts a E. apply (map_res_pointwise _ _ _ _ _ E). Qed.
(** the dummy curve: nothing is discounted, for 99 years *)
Theorem c141_dummy : forall f_exp, good_exp f_exp -> exists c, dummy_curve f_exp = Ret (ROk c) /\
  forall t, finite t -> 0 <= value t < 99 -> exists y, discount c t = Ret (ROk y) /\ finite y /\ value y = 1.
Proof.
  intros f_exp GE. unfold dummy_curve.
  assert (EV : exists ts, vector_new [gof_Z 0] (Some [Odt (day_number 2080 1 1) 0 0]) None (Some (Odt 0 0 0)) = Ret (ROk (VectorData [gof_Z 0] (Some [Odt (day_number 2080 1 1) 0 0]) [ts] (Some (Odt 0 0 0))))).
  { destruct (get_time_difference (Odt 0 0 0) (Odt (day_number 2080 1 1) 0 0)) as [x| |] eqn:Q.
    - exists x. cbn [vector_new List.length Nat.eqb negb map_outcome]. rewrite Q. reflexivity.
    - exfalso. assert (K : (match get_time_difference (Odt 0 0 0) (Odt (day_number 2080 1 1) 0 0) with Ret _ => true | _ => false end) = true) by (vm_compute; reflexivity). rewrite Q in K. discriminate K.
    - exfalso. assert (K : (match get_time_difference (Odt 0 0 0) (Odt (day_number 2080 1 1) 0 0) with Ret _ => true | _ => false end) = true) by (vm_compute; reflexivity). rewrite Q in K. discriminate K. }
  destruct EV as (x & EV). rewrite EV. cbn [rbind]. set (data := VectorData _ _ _ _).
  assert (C : civil_ok 1970 1 1 0) by (split; [unfold representable_year; lia|]; split; [split; [lia|change (month_days 1970 1) with 31%Z; lia]|unfold day_ns; lia]).
  assert (Z : finite (gof_Z 0) /\ value (gof_Z 0) = 0) by (split; [vm_compute; reflexivity|exact (proj2 (small_fin 0 ltac:(lia)))]).
  assert (GR : good_rates (vd_times data) (vd_value data)).
  { split; [reflexivity|]. split; [|left; reflexivity]. apply Forall_cons; [|apply Forall_nil]. split; [apply Z|]. rewrite (proj2 Z), Rabs_R0. lra. }
  change (Odt 0 0 0) with (civil 1970 1 1 0 0).
  destruct (new_sound f_exp 1970 1 1 0 0 data C ltac:(lia) ltac:(lia) GR) as (c & E & S & _). exists c. split; [exact E|].
  pose proof (flat_rates f_exp _ data (gof_Z 0) _ eq_refl E) as FR. intros t Ft Bt. destruct (ends f_exp c S) as (t0 & t9 & H0 & V0 & F0 & H9 & V9 & F9 & _).
  destruct (inside f_exp GE c t t9 S Ft H9 ltac:(lra)) as (i & a & b & u & w & ra & rb & Ha & Hb & Hu & Hw & Hra & Hrb & Eu & Ew & B & ED & Fs).
  rewrite FR in Hra, Hrb. apply flat_nth in Hra. apply flat_nth in Hrb. subst ra rb.
  destruct (times_range f_exp c S _ _ Ha) as [Fa Ba]. destruct (times_range f_exp c S _ _ Hb) as [Fb Bb]. pose proof (proj2 (so_rises _ c S) i a b Ha Hb) as AB.
  assert (ONE : forall q, finite q -> finite (f_exp (gneg (gmul (gof_Z 0) q))) /\ value (f_exp (gneg (gmul (gof_Z 0) q))) = 1).
  { intros q Fq. destruct (mul_zero (gof_Z 0) q (proj1 Z) Fq (or_introl (proj2 Z))) as [G1 G2]. pose proof (fin_neg 24 128 _ _ (fin_of _ G1)) as [G3 G4]. apply (proj1 GE); [exact G3|].
    unfold value. rewrite G4. unfold real_of. unfold value in G2. rewrite G2. ring. }
  destruct (ONE a Fa) as [Fu Vu]. destruct (ONE b Fb) as [Fw Vw]. rewrite <- Eu in Fu, Vu. rewrite <- Ew in Fw, Vw.
  destruct (same_sub w u Fw Fu ltac:(lra)) as [G1 G2].
  destruct (sub_err b a _ _ (fin_of b Fb) (fin_of a Fa)) as (v & e & Fv & He & Ev).
  { apply two100_127. pose proof two100_pos. unfold real_of. fold (value a) (value b). apply Rle_trans with 101; [apply Rabs_le; lra|lra]. }
  assert (VN : value (gsub b a) <> 0).
  { unfold value. rewrite (proj2 Fv), Ev. unfold real_of. fold (value a) (value b). apply Rabs_le_inv in He. unfold e24 in He. apply Rgt_not_eq. apply Rmult_lt_0_compat; lra. }
  destruct (div_of_zero _ _ G1 (proj1 Fv) G2 VN) as [G3 G4].
  destruct (sub_err t a _ _ (fin_of t Ft) (fin_of a Fa)) as (v2 & e2 & Fv2 & _ & _).
  { apply two100_127. pose proof two100_pos. unfold real_of. fold (value a) (value t). apply Rle_trans with 101; [apply Rabs_le; lra|lra]. }
  destruct (mul_zero _ _ G3 (proj1 Fv2) (or_introl G4)) as [G5 G6]. destruct (plus_zero u _ Fu G5 G6) as [G7 G8].
  eexists. split; [exact ED|]. split; [exact G7|]. rewrite G8. exact Vu.
Qed.

(** ** Concrete cases *)
Lemma ex_curve : exists c t9, reached an_exp c /\ Forall (fun r => 0 <= value r <= 0.1) (cv_rates c) /\ nth_error (cv_times c) 28 = Some t9 /\ 99 <= value t9.
Proof.
  destruct (ex_reached an_exp) as (c & H & RR). exists c. destruct (so_last _ c (reached_sound _ c H)) as (t9 & H9 & B). exists t9. split; [exact H|]. split; [|split; [exact H9|lra]].
  rewrite RR. apply List.Forall_forall. intros r I. apply repeat_spec in I. subst r. destruct eighth_value as (_ & _ & _ & ->). lra.
Qed.
Example c138_hypotheses_met : exists f_exp c t9, good_exp f_exp /\ reached f_exp c /\ Forall (fun r => 0 <= value r <= 0.1) (cv_rates c) /\ nth_error (cv_times c) 28 = Some t9 /\
  0 <= value eighth /\ value eighth <= value (gof_Z 1) /\ value (gof_Z 1) <= value (gof_Z 30) /\ value (gof_Z 30) < value t9.
Proof.
  destruct ex_curve as (c & t9 & H & RR & H9 & B). exists an_exp, c, t9. split; [exact an_exp_good|]. split; [exact H|]. split; [exact RR|]. split; [exact H9|].
  destruct eighth_value as (_ & -> & _). destruct (small_fin 1 ltac:(lia)) as [_ R1]. destruct (small_fin 30 ltac:(lia)) as [_ R30]. unfold value, real_of in *. rewrite R1, R30. lra.
Qed.
Example c139_hypotheses_met : exists f_exp f_ln c t9, good_exp f_exp /\ good_ln f_ln /\ reached f_exp c /\ Forall (fun r => 0 <= value r <= 0.1) (cv_rates c) /\ nth_error (cv_times c) 28 = Some t9 /\
  0 <= value eighth /\ value eighth + / 2 ^ 18 <= value (gof_Z 1) /\ value (gof_Z 1) < value t9.
Proof.
  destruct ex_curve as (c & t9 & H & RR & H9 & B). exists an_exp, an_ln, c, t9. split; [exact an_exp_good|]. split; [exact an_ln_good|]. split; [exact H|]. split; [exact RR|]. split; [exact H9|].
  destruct eighth_value as (_ & -> & _). destruct (small_fin 1 ltac:(lia)) as [_ R1]. unfold value, real_of in *. rewrite R1. assert (P18 : 2 ^ 18 = 262144) by (rewrite pow_IZR; reflexivity). rewrite P18. lra.
Qed.
Example c140_hypotheses_met : exists f_exp c, reached f_exp c /\ finite eighth /\ value eighth <= value (gof_Z 1) /\ hit_by (Some eighth) (Some (gof_Z 1)) half.
Proof.
  destruct ex_curve as (c & t9 & H & _). exists an_exp, c. split; [exact H|]. destruct eighth_value as (F8 & V8 & _). destruct (small_fin 1 ltac:(lia)) as [_ R1]. unfold real_of in R1. fold (value (gof_Z 1)) in R1.
  assert (VH : value half = / 2) by (unfold value, half; cbn -[IZR]; unfold F2R; cbn -[IZR]; lra).
  split; [exact F8|]. split; [lra|]. split; intros x Q; un Q; lra.
Qed.
Example c141_hypotheses_met : exists f_exp c, good_exp f_exp /\ reached f_exp c /\ Forall finite [eighth; half; half].
Proof. destruct ex_curve as (c & t9 & H & _). exists an_exp, c. split; [exact an_exp_good|]. split; [exact H|]. repeat (apply Forall_cons; [reflexivity|]). apply Forall_nil. Qed.
Print Assumptions c138_errors.
Print Assumptions c138_same.
Print Assumptions c138_quotient.
Print Assumptions c138_chain.
Print Assumptions c139_simple_refuted.
Print Assumptions c139_continuous.
Print Assumptions c139_same_refuted.
Print Assumptions c139_short_refuted.
Print Assumptions c139_errors.
Print Assumptions c139_dates.
Print Assumptions c139_flat.
Print Assumptions c139_fifty_years_refuted.
Print Assumptions c140_bump.
Print Assumptions c140_reversed.
Print Assumptions c140_dates.
Print Assumptions c141_times.
Print Assumptions c141_dates.
Print Assumptions c141_short_date.
Print Assumptions c141_short_rates.
Print Assumptions c141_dummy.
