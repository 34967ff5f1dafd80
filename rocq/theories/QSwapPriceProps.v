(** QSwapPriceProps.v -- C159 to C161: the value of a swap. *)
From Coq Require Import ZArith List Permutation Reals Lra Lia Bool Ascii.
From Flocq Require Import Core IEEE754.BinarySingleNaN.
From Verif Require Import Base CivilSpec FloatModel FloatFacts KrxModel QDateModel QCalModel QPeriodModel QYearModel QSchedModel QInterpModel QInterpSpec QDivModel
  QCurveModel QCurveSpec QCurveFacts QCurveExp QFloatErr QLinProps QCurveProps QCurveFwdProps QBondModel QBondSpec QBondProofs QBondPriceProps QBondProps QCouponProps QMoneyModel QMoneyProps QSwapModel QSwapSpec QSwapProps.
Import ListNotations.
Open Scope R_scope.

(** ** C159: the value *)
Lemma p118 : forall k, 0 <= k -> k * (tiny * 1073741824 * 2) + tiny <= (k + 1) / 2 ^ 118.
Proof.
  intros k K. assert (T : tiny * 4294967296 <= / 2 ^ 118).
  { replace 4294967296 with (bpow radix2 32) by reflexivity. unfold tiny. rewrite <- bpow_plus. apply Rle_trans with (bpow radix2 (Z.opp 118)); [apply bpow_le; lia|].
    rewrite (bpow_opp radix2 118). rewrite <- (IZR_Zpower radix2 118) by lia. rewrite pow_IZR. apply Rle_refl. }
  pose proof tiny_1 as T1. unfold Rdiv. set (h := / 2 ^ 118) in *. assert (k * (tiny * 4294967296) <= k * h) by (apply Rmult_le_compat_l; lra). assert (0 <= k * tiny) by (apply Rmult_le_pos; lra). lra.
Qed.
(** a sum of [n] terms, times a number *)
Lemma scaled : forall (s c : f32) v A B n, fn s v -> usual c -> 0 <= n <= 1048576 -> 0 <= B <= 1048576 * 2 ^ 50 -> Rabs A <= B -> Rabs (v - A) <= (2 * n * e24 + 2 * e24) * B + n * (2 * tiny) ->
  exists x, fn (gmul s c) x /\ Rabs (x - A * value c) <= Rabs (value c) * B * ((n + 2) / 2 ^ 23) + (n + 1) / 2 ^ 117 /\ Rabs x <= 2 ^ 104 /\ Rabs (A * value c) <= Rabs (value c) * B.
Proof.
  intros s c v A B n Fs [Fc Bc] Hn HB HA V. rewrite p50 in HB. rewrite p30 in Bc. set (g := value c) in *. pose proof tiny_1 as T1.
  set (M := 2 * n * e24 + 2 * e24) in *. assert (MM : 0 <= M <= / 4) by (unfold M, e24; lra).
  assert (MB : 0 <= M * B <= / 4 * B) by (split; [apply Rmult_le_pos; lra|apply Rmult_le_compat_r; lra]).
  assert (NT : 0 <= n * (2 * tiny) <= 1048576 * 2) by (split; [apply Rmult_le_pos; lra|apply Rmult_le_compat; lra]).
  assert (Va : Rabs v <= 2 * B + 2097152). { replace v with (A + (v - A)) by ring. apply Rle_trans with (1 := Rabs_triang _ _). lra. }
  assert (VG : Rabs (v * g) <= (2 * (1048576 * 1125899906842624) + 2097152) * 1073741824) by (rewrite Rabs_mult; apply Rmult_le_compat; try apply Rabs_pos; lra).
  destruct (mul_err s c v g Fs (conj Fc eq_refl)) as (x & d & t & Fx & D & T & Ex); [apply two100_127; unfold two100; lra|].
  assert (AG : Rabs (A * g) <= Rabs g * B) by (rewrite Rabs_mult, Rmult_comm; apply Rmult_le_compat_l; [apply Rabs_pos|exact HA]).
  exists x. split; [exact Fx|]. split; [|split; [|exact AG]].
  - replace (x - A * g) with ((v - A) * g * (1 + d) + A * g * d + t) by (rewrite Ex; ring).
    apply Rle_trans with (1 := Rabs_triang _ _). apply Rle_trans with (Rabs ((v - A) * g * (1 + d)) + Rabs (A * g * d) + tiny); [apply Rplus_le_compat; [apply Rabs_triang|exact T]|].
    assert (D1 : Rabs (1 + d) <= 1 + e24) by (apply Rle_trans with (1 := Rabs_triang _ _); rewrite Rabs_R1; lra).
    assert (X1 : Rabs ((v - A) * g * (1 + d)) <= (M * B + n * (2 * tiny)) * Rabs g * (1 + e24)).
    { rewrite !Rabs_mult. apply Rmult_le_compat; [apply Rmult_le_pos; apply Rabs_pos|apply Rabs_pos| |exact D1]. apply Rmult_le_compat_r; [apply Rabs_pos|exact V]. }
    assert (X2 : Rabs (A * g * d) <= Rabs g * B * e24) by (rewrite (Rabs_mult (A * g)); apply Rmult_le_compat; try apply Rabs_pos; assumption).
    assert (P23 : 2 ^ 23 = 8388608) by (rewrite pow_IZR; reflexivity). rewrite P23. pose proof (Rabs_pos g) as Pg.
    assert (GB : 0 <= Rabs g * B) by (apply Rmult_le_pos; lra).
    assert (X3 : M * B * Rabs g * (1 + e24) + Rabs g * B * e24 <= Rabs g * B * ((n + 2) / 8388608)).
    { replace (M * B * Rabs g * (1 + e24) + Rabs g * B * e24) with (Rabs g * B * (M * (1 + e24) + e24)) by ring. apply Rmult_le_compat_l; [exact GB|]. assert (M * e24 <= / 4 * e24) by (apply Rmult_le_compat_r; [unfold e24; lra|lra]). unfold M, e24 in *. lra. }
    assert (X4 : n * (2 * tiny) * Rabs g * (1 + e24) + tiny <= (n + 1) / 2 ^ 117).
    { pose proof (p118 n ltac:(lra)) as P. change (2 ^ 118) with (2 * 2 ^ 117) in P. pose proof (two_n 117) as W. assert (HH : (n + 1) / (2 * 2 ^ 117) = (n + 1) / 2 ^ 117 * / 2) by (field; lra). rewrite HH in P.
      assert (Y : n * (2 * tiny) * Rabs g * (1 + e24) <= n * (2 * tiny) * 1073741824 * 2) by (apply Rmult_le_compat; [apply Rmult_le_pos; lra|unfold e24; lra|apply Rmult_le_compat_l; lra|unfold e24; lra]).
      lra. }
    lra.
  - assert (P104 : 2 ^ 104 = 20282409603651670423947251286016) by (rewrite pow_IZR; reflexivity). rewrite P104. rewrite Ex. apply Rle_trans with (1 := Rabs_triang _ _).
    assert (D1 : Rabs (1 + d) <= 2) by (apply Rle_trans with (1 := Rabs_triang _ _); rewrite Rabs_R1; unfold e24 in D; lra).
    assert (Rabs (v * g * (1 + d)) <= (2 * (1048576 * 1125899906842624) + 2097152) * 1073741824 * 2); [rewrite (Rabs_mult (v * g)); apply Rmult_le_compat; try apply Rabs_pos; assumption|lra].
Qed.
Lemma count_range : forall {A} (l : list A), (Z.of_nat (length l) <= 1048576)%Z -> 0 <= INR (length l) <= 1048576.
Proof. intros A l H. rewrite INR_IZR_INZ. split; apply IZR_le; lia. Qed.
Lemma rate_usual : forall fx, (fx = None \/ exists x, fx = Some x /\ usual x) -> usual (fx_rate fx).
Proof. intros fx [-> |(x & -> & U)]; [apply usual_small; lia|exact U]. Qed.
(** the legs in their currencies *)
Lemma legs_value : forall f_ln o1 o2 eval d1 d2 fwd past s m1 m2, iterates o1 -> iterates o2 -> fixed_cashflows s eval = Ret (ROk m1) -> float_cashflows f_ln s eval eval fwd past = Ret (ROk m2) ->
  Forall (good_flow eval d1 eval) m1 -> Forall (good_flow eval d2 eval) m2 -> (Z.of_nat (length (future eval m1)) <= 1048576)%Z -> (Z.of_nat (length (future eval m2)) <= 1048576)%Z ->
  let n1 := INR (length (future eval m1)) in let n2 := INR (length (future eval m2)) in let F1 := factor_on eval d1 in let F2 := factor_on eval d2 in
  exists s1 v1 s2 v2, leg_values f_ln o1 o2 eval d1 d2 fwd past s = Ret (ROk (s1, s2)) /\ fn s1 v1 /\ fn s2 v2 /\
    Rabs (v1 - present_value F1 (future eval m1)) <= (2 * n1 * e24 + 2 * e24) * present_size F1 (future eval m1) + n1 * (2 * tiny) /\
    Rabs (v2 - present_value F2 (future eval m2)) <= (2 * n2 * e24 + 2 * e24) * present_size F2 (future eval m2) + n2 * (2 * tiny).
Proof.
  intros f_ln o1 o2 eval d1 d2 fwd past s m1 m2 I1 I2 E1 E2 G1 G2 N1 N2 n1 n2 F1 F2. unfold leg_values. rewrite E1, E2. cbn [rbind].
  destruct (discounted_value o1 eval d1 eval m1 I1 G1 N1) as (s1 & v1 & D1 & W1 & Q1). destruct (discounted_value o2 eval d2 eval m2 I2 G2 N2) as (s2 & v2 & D2 & W2 & Q2).
  rewrite D1. cbn [rbind]. rewrite D2. cbn [rbind]. exists s1, v1, s2, v2. auto.
Qed.
Lemma plus_close : forall (a b : f32) x y A B ea eb, fn a x -> fn b y -> Rabs (x - A) <= ea -> Rabs (y - B) <= eb -> Rabs x <= 2 ^ 104 -> Rabs y <= 2 ^ 104 ->
  exists z, fn (gadd a b) z /\ Rabs (z - (A + B)) <= (ea + eb) * (1 + e24) + (Rabs A + Rabs B) * e24.
Proof.
  intros a b x y A B ea eb Fa Fb HA HB Bx By. assert (P104 : 2 ^ 104 = 20282409603651670423947251286016) by (rewrite pow_IZR; reflexivity). rewrite P104 in Bx, By.
  destruct (add_err a b x y Fa Fb) as (z & d & Fz & D & Ez).
  { apply Rle_trans with (1 := Rabs_triang _ _). apply Rle_trans with (bpow radix2 106); [|apply bpow_le; lia]. rewrite <- (IZR_Zpower radix2 106) by lia. apply Rle_trans with (20282409603651670423947251286016 + 20282409603651670423947251286016); [lra|].
    rewrite <- plus_IZR. apply IZR_le. vm_compute. discriminate. }
  exists z. split; [exact Fz|]. replace (z - (A + B)) with (((x - A) + (y - B)) * (1 + d) + (A + B) * d) by (rewrite Ez; ring). apply Rle_trans with (1 := Rabs_triang _ _). rewrite !Rabs_mult.
  assert (D1 : Rabs (1 + d) <= 1 + e24) by (apply Rle_trans with (1 := Rabs_triang _ _); rewrite Rabs_R1; lra).
  apply Rplus_le_compat; (apply Rmult_le_compat; [apply Rabs_pos|apply Rabs_pos| |assumption]); (apply Rle_trans with (1 := Rabs_triang _ _); lra).
Qed.
Lemma leg_bound : forall eval d m, Forall (good_flow eval d eval) m -> (Z.of_nat (length (future eval m)) <= 1048576)%Z -> forall v, Rabs (v - present_value (factor_on eval d) (future eval m)) <= (2 * INR (length (future eval m)) * e24 + 2 * e24) * present_size (factor_on eval d) (future eval m) + INR (length (future eval m)) * (2 * tiny) -> Rabs v <= 2 ^ 104.
Proof.
  intros eval d m G N v V. destruct (size_range eval d eval m G N) as [S1 S2]. pose proof (count_range _ N) as K. set (n := INR (length (future eval m))) in *. set (B := present_size (factor_on eval d) (future eval m)) in *. set (A := present_value (factor_on eval d) (future eval m)) in *.
  rewrite p50 in S1. pose proof tiny_1 as T1. assert (P104 : 2 ^ 104 = 20282409603651670423947251286016) by (rewrite pow_IZR; reflexivity). rewrite P104.
  assert (MB : (2 * n * e24 + 2 * e24) * B <= / 4 * B) by (apply Rmult_le_compat_r; [lra|unfold e24; lra]). assert (NT : n * (2 * tiny) <= 1048576 * 2) by (apply Rmult_le_compat; lra).
  replace v with (A + (v - A)) by ring. apply Rle_trans with (1 := Rabs_triang _ _). lra.
Qed.
(** the fixed legs plus the floating legs at the rate of exchange, up to
    rounding, in whatever order the maps are iterated *)
Theorem c159_value : forall f_ln o1 o2 eval d1 d2 fwd past fx s m1 m2, iterates o1 -> iterates o2 -> fixed_cashflows s eval = Ret (ROk m1) -> float_cashflows f_ln s eval eval fwd past = Ret (ROk m2) ->
  Forall (good_flow eval d1 eval) m1 -> Forall (good_flow eval d2 eval) m2 -> (Z.of_nat (length (future eval m1)) <= 1048576)%Z -> (Z.of_nat (length (future eval m2)) <= 1048576)%Z ->
  (fx = None \/ exists x, fx = Some x /\ usual x) ->
  let n1 := INR (length (future eval m1)) in let n2 := INR (length (future eval m2)) in let F1 := factor_on eval d1 in let F2 := factor_on eval d2 in
  let R := match fx with Some x => value x | None => 1 end in
  exists x, swap_npv f_ln o1 o2 eval d1 d2 fwd past fx s = Ret (ROk x) /\ finite x /\
    Rabs (value x - (present_value F1 (future eval m1) + R * present_value F2 (future eval m2))) <=
      present_size F1 (future eval m1) * ((n1 + 2) / 2 ^ 23) + Rabs R * present_size F2 (future eval m2) * ((n2 + 3) / 2 ^ 23) + (n1 + n2 + 1) / 2 ^ 116.
Proof.
  intros f_ln o1 o2 eval d1 d2 fwd past fx s m1 m2 I1 I2 E1 E2 G1 G2 N1 N2 HX n1 n2 F1 F2 R.
  destruct (legs_value f_ln o1 o2 eval d1 d2 fwd past s m1 m2 I1 I2 E1 E2 G1 G2 N1 N2) as (s1 & v1 & s2 & v2 & EL & W1 & W2 & Q1 & Q2). cbn zeta in Q1, Q2.
  pose proof (leg_bound eval d1 m1 G1 N1 v1 Q1) as B1. fold n1 F1 in Q1. fold n2 F2 in Q2.
  destruct (size_range eval d1 eval m1 G1 N1) as [S1 S1']. destruct (size_range eval d2 eval m2 G2 N2) as [S2 S2']. fold F1 in S1, S1'. fold F2 in S2, S2'.
  pose proof (count_range _ N1 : 0 <= n1 <= 1048576) as K1. pose proof (count_range _ N2 : 0 <= n2 <= 1048576) as K2.
  assert (ER : value (fx_rate fx) = R). { unfold R. destruct fx as [x|]; [reflexivity|]. destruct one_fn as [_ V]. exact V. }
  destruct (scaled s2 (fx_rate fx) v2 _ _ n2 W2 (rate_usual fx HX) K2 S2 S2' Q2) as (p & Fp & Hp & Bp & Cp). rewrite ER in *.
  destruct (plus_close s1 (gmul s2 (fx_rate fx)) v1 p _ _ _ _ W1 Fp Q1 Hp B1 Bp) as (z & [Fz Vz] & Hz).
  unfold swap_npv. rewrite EL. cbn [rbind fst snd]. eexists. split; [reflexivity|]. split; [exact Fz|]. unfold value at 1. rewrite Vz.
  set (A1 := present_value F1 (future eval m1)) in *. set (A2 := present_value F2 (future eval m2)) in *. set (C1 := present_size F1 (future eval m1)) in *. set (C2 := present_size F2 (future eval m2)) in *.
  rewrite (Rmult_comm R A2). apply Rle_trans with (1 := Hz).
  assert (P23 : 2 ^ 23 = 8388608) by (rewrite pow_IZR; reflexivity). rewrite P23 in *. pose proof (Rabs_pos R) as PR. assert (RC : 0 <= Rabs R * C2) by (apply Rmult_le_pos; lra). pose proof tiny_1 as T1. pose proof QBondProofs.tiny_small as TS.
  assert (T16 : (n1 * (2 * tiny) + (n2 + 1) / 2 ^ 117) * (1 + e24) <= (n1 + n2 + 1) / 2 ^ 116).
  { change (2 ^ 117) with (2 * 2 ^ 116). pose proof (two_n 116) as W. assert (HH : (n2 + 1) / (2 * 2 ^ 116) = (n2 + 1) / 2 ^ 116 * / 2) by (field; lra). rewrite HH. clear HH.
    assert (TT : 2 * tiny <= / 2 ^ 116 * / 2). { assert (H16 : 2 ^ 120 = 16 * 2 ^ 116) by ring. rewrite H16 in TS. assert (HH : / (16 * 2 ^ 116) = / 2 ^ 116 * / 16) by (field; lra). rewrite HH in TS. assert (0 < / 2 ^ 116) by (apply Rinv_0_lt_compat; exact W). lra. }
    unfold Rdiv. set (h := / 2 ^ 116) in *. assert (Hh : 0 < h) by (unfold h; apply Rinv_0_lt_compat; exact W). assert (Y : n1 * (2 * tiny) <= n1 * (h * / 2)) by (apply Rmult_le_compat_l; lra).
    apply Rle_trans with ((n1 * (h * / 2) + (n2 + 1) * h * / 2) * 2); [|lra]. apply Rmult_le_compat; try (unfold e24; lra). assert (0 <= (n2 + 1) * h) by (apply Rmult_le_pos; lra). assert (0 <= n1 * (2 * tiny)) by (apply Rmult_le_pos; lra). lra. }
  assert (T1' : (2 * n1 * e24 + 2 * e24) * C1 * (1 + e24) + C1 * e24 <= C1 * ((n1 + 2) / 8388608)).
  { replace ((2 * n1 * e24 + 2 * e24) * C1 * (1 + e24) + C1 * e24) with (C1 * ((2 * n1 * e24 + 2 * e24) * (1 + e24) + e24)) by ring. apply Rmult_le_compat_l; [lra|]. assert ((2 * n1 * e24 + 2 * e24) * e24 <= / 4 * e24) by (apply Rmult_le_compat_r; unfold e24; lra). unfold e24 in *. lra. }
  assert (T2' : Rabs R * C2 * ((n2 + 2) / 8388608) * (1 + e24) + Rabs R * C2 * e24 <= Rabs R * C2 * ((n2 + 3) / 8388608)).
  { replace (Rabs R * C2 * ((n2 + 2) / 8388608) * (1 + e24) + Rabs R * C2 * e24) with (Rabs R * C2 * ((n2 + 2) / 8388608 * (1 + e24) + e24)) by ring. apply Rmult_le_compat_l; [exact RC|]. unfold e24. lra. }
  assert (Z1 : Rabs A1 * e24 <= C1 * e24) by (apply Rmult_le_compat_r; [unfold e24; lra|exact S1']). assert (Z2 : Rabs (A2 * R) * e24 <= Rabs R * C2 * e24) by (apply Rmult_le_compat_r; [unfold e24; lra|exact Cp]).
  replace (((2 * n1 * e24 + 2 * e24) * C1 + n1 * (2 * tiny) + (Rabs R * C2 * ((n2 + 2) / 8388608) + (n2 + 1) / 2 ^ 117)) * (1 + e24) + (Rabs A1 + Rabs (A2 * R)) * e24)
    with ((2 * n1 * e24 + 2 * e24) * C1 * (1 + e24) + Rabs A1 * e24 + (Rabs R * C2 * ((n2 + 2) / 8388608) * (1 + e24) + Rabs (A2 * R) * e24) + (n1 * (2 * tiny) + (n2 + 1) / 2 ^ 117) * (1 + e24)) by ring.
  lra.
Qed.
(** two runs differ by rounding only *)
Theorem c159_orders : forall f_ln o1 o2 o1' o2' eval d1 d2 fwd past fx s m1 m2, iterates o1 -> iterates o2 -> iterates o1' -> iterates o2' -> fixed_cashflows s eval = Ret (ROk m1) -> float_cashflows f_ln s eval eval fwd past = Ret (ROk m2) ->
  Forall (good_flow eval d1 eval) m1 -> Forall (good_flow eval d2 eval) m2 -> (Z.of_nat (length (future eval m1)) <= 1048576)%Z -> (Z.of_nat (length (future eval m2)) <= 1048576)%Z ->
  (fx = None \/ exists x, fx = Some x /\ usual x) ->
  let n1 := INR (length (future eval m1)) in let n2 := INR (length (future eval m2)) in let F1 := factor_on eval d1 in let F2 := factor_on eval d2 in
  let R := match fx with Some x => value x | None => 1 end in
  exists x x', swap_npv f_ln o1 o2 eval d1 d2 fwd past fx s = Ret (ROk x) /\ swap_npv f_ln o1' o2' eval d1 d2 fwd past fx s = Ret (ROk x') /\
    Rabs (value x - value x') <= 2 * (present_size F1 (future eval m1) * ((n1 + 2) / 2 ^ 23) + Rabs R * present_size F2 (future eval m2) * ((n2 + 3) / 2 ^ 23) + (n1 + n2 + 1) / 2 ^ 116).
Proof.
  intros f_ln o1 o2 o1' o2' eval d1 d2 fwd past fx s m1 m2 I1 I2 I1' I2' E1 E2 G1 G2 N1 N2 HX n1 n2 F1 F2 R.
  destruct (c159_value f_ln o1 o2 eval d1 d2 fwd past fx s m1 m2 I1 I2 E1 E2 G1 G2 N1 N2 HX) as (x & E & _ & V). destruct (c159_value f_ln o1' o2' eval d1 d2 fwd past fx s m1 m2 I1' I2' E1 E2 G1 G2 N1 N2 HX) as (x' & E' & _ & V').
  exists x, x'. split; [exact E|]. split; [exact E'|]. cbn zeta in V, V'. fold n1 n2 F1 F2 R in V, V'.
  set (T := present_value F1 (future eval m1) + R * present_value F2 (future eval m2)) in *. replace (value x - value x') with ((value x - T) - (value x' - T)) by ring. apply Rle_trans with (1 := Rabs_triang _ _). rewrite Rabs_Ropp. lra.
Qed.
(** a deal with nothing but the exchange at maturity: what is received at the
    rate of exchange less what is paid, each discounted *)
Theorem c159_forward : forall f_ln o1 o2 eval d1 d2 fwd past fx s w1 w2, iterates o1 -> iterates o2 -> sw_init_fixed s = None -> sw_init_float s = None -> sw_rate s = None -> sw_index s = None -> sw_last_fixed s = Some w1 -> sw_last_float s = Some w2 ->
  (od_day eval < od_day (sw_maturity s))%Z -> usual w1 -> usual w2 -> priced eval d1 (sw_maturity s) -> priced eval d2 (sw_maturity s) -> usual fx ->
  let a1 := value w1 * factor_on eval d1 (sw_maturity s) in let a2 := value fx * (value w2 * factor_on eval d2 (sw_maturity s)) in
  exists x, swap_npv f_ln o1 o2 eval d1 d2 fwd past (Some fx) s = Ret (ROk x) /\ finite x /\ Rabs (value x - (a2 - a1)) <= Rabs a1 * (3 / 2 ^ 23) + Rabs a2 * (4 / 2 ^ 23) + 3 / 2 ^ 116.
Proof.
  intros f_ln o1 o2 eval d1 d2 fwd past fx s w1 w2 I1 I2 A1 A2 A3 A4 L1 L2 D U1 U2 P1 P2 UX a1 a2.
  assert (E1 : fixed_cashflows s eval = Ret (ROk [(sw_maturity s, gneg w1)])).
  { unfold fixed_cashflows. rewrite A1, A3, L1. cbn [some]. rewrite andb_false_r, (proj2 (Z.leb_le _ _)) by lia. reflexivity. }
  assert (E2 : float_cashflows f_ln s eval eval fwd past = Ret (ROk [(sw_maturity s, w2)])).
  { unfold float_cashflows. rewrite A2, A4, L2. rewrite (proj2 (Z.leb_le (od_day eval) (od_day (sw_maturity s)))) by lia. destruct (od_day eval <=? od_day (sw_effective s))%Z; reflexivity. }
  destruct U1 as [FW1 BW1]. destruct U2 as [FW2 BW2]. destruct (fin_neg 24 128 w1 (value w1) (conj FW1 eq_refl)) as [FN VN]. fold (value (gneg w1)) in VN.
  assert (FU : forall x : f32, future eval [(sw_maturity s, x)] = [(sw_maturity s, x)]) by (intro x; unfold future; cbn [filter fst]; rewrite (proj2 (Z.ltb_lt _ _) D); reflexivity).
  destruct (c159_value f_ln o1 o2 eval d1 d2 fwd past (Some fx) s _ _ I1 I2 E1 E2) as (x & EX & FX & VX).
  - constructor; [|constructor]. split; [exact FN|]. cbn [snd fst]. split; [rewrite VN, Rabs_Ropp; exact BW1|]. intros _. exact P1.
  - constructor; [|constructor]. split; [exact FW2|]. cbn [snd fst]. split; [exact BW2|]. intros _. exact P2.
  - rewrite FU. cbn. lia.
  - rewrite FU. cbn. lia.
  - right. exists fx. auto.
  - exists x. split; [exact EX|]. split; [exact FX|]. cbn zeta in VX. rewrite !FU in VX. unfold present_value, present_size in VX. cbn [sum_over fold_right fst snd length INR] in VX. rewrite VN, !Rplus_0_r, Rabs_Ropp in VX.
    pose proof (factor_range _ _ _ P1) as R1. pose proof (factor_range _ _ _ P2) as R2. rewrite p20 in R1, R2.
    assert (X1 : Rabs (value w1) * factor_on eval d1 (sw_maturity s) = Rabs a1) by (unfold a1; rewrite Rabs_mult, (Rabs_pos_eq (factor_on eval d1 (sw_maturity s))); lra).
    assert (X2 : Rabs (value fx) * (Rabs (value w2) * factor_on eval d2 (sw_maturity s)) = Rabs a2) by (unfold a2; rewrite !Rabs_mult, (Rabs_pos_eq (factor_on eval d2 (sw_maturity s))); lra).
    rewrite X1, X2 in VX. replace (- value w1 * factor_on eval d1 (sw_maturity s) + value fx * (value w2 * factor_on eval d2 (sw_maturity s))) with (a2 - a1) in VX by (unfold a1, a2; ring).
    replace (1 + 2) with 3 in VX by ring. replace (1 + 3) with 4 in VX by ring. replace (1 + 1 + 1) with 3 in VX by ring. exact VX.
Qed.
(** an error of the cash flows, or of a discount factor, is the result *)
Theorem c159_errors : forall f_ln o1 o2 eval d1 d2 fwd past fx s, iterates o1 -> iterates o2 ->
  (fixed_cashflows s eval = Ret RErr -> swap_npv f_ln o1 o2 eval d1 d2 fwd past fx s = Ret RErr) /\
  (forall m1, fixed_cashflows s eval = Ret (ROk m1) -> float_cashflows f_ln s eval eval fwd past = Ret RErr -> swap_npv f_ln o1 o2 eval d1 d2 fwd past fx s = Ret RErr) /\
  (forall m1 m2, fixed_cashflows s eval = Ret (ROk m1) -> float_cashflows f_ln s eval eval fwd past = Ret (ROk m2) ->
     (forall p, In p m1 -> (od_day eval < od_day (fst p))%Z -> exists x, discount_at eval d1 (fst p) = Ret x) -> (forall p, In p m2 -> (od_day eval < od_day (fst p))%Z -> exists x, discount_at eval d2 (fst p) = Ret x) ->
     (exists p, In p m1 /\ (od_day eval < od_day (fst p))%Z /\ discount_at eval d1 (fst p) = Ret RErr) \/ (exists p, In p m2 /\ (od_day eval < od_day (fst p))%Z /\ discount_at eval d2 (fst p) = Ret RErr) ->
     swap_npv f_ln o1 o2 eval d1 d2 fwd past fx s = Ret RErr).
Proof.
  intros f_ln o1 o2 eval d1 d2 fwd past fx s I1 I2. unfold swap_npv, leg_values. split; [intros ->; reflexivity|]. split; [intros m1 -> ->; reflexivity|].
  intros m1 m2 -> -> T1 T2 H. cbn [rbind].
  assert (A1 : forall q, In q (o1 m1) -> (od_day eval < od_day (fst q))%Z -> exists x, discount_at eval d1 (fst q) = Ret x) by (intros q J; apply T1; apply (Permutation_in q (I1 m1)); exact J).
  assert (A2 : forall q, In q (o2 m2) -> (od_day eval < od_day (fst q))%Z -> exists x, discount_at eval d2 (fst q) = Ret x) by (intros q J; apply T2; apply (Permutation_in q (I2 m2)); exact J).
  assert (TOT : forall l d v, (forall q, In q l -> (od_day eval < od_day (fst q))%Z -> exists x, discount_at eval d (fst q) = Ret x) -> exists r, discounted l eval d eval v = Ret r).
  { induction l as [|[e x] l IH]; intros d v A; [eexists; reflexivity|]. cbn [discounted]. destruct (Z.ltb_spec (od_day eval) (od_day e)) as [L|L].
    - destruct (A (e, x) (or_introl eq_refl) L) as (y & Y). cbn [fst] in Y. rewrite Y. destruct y as [y|]; cbn [rbind]; [|eexists; reflexivity]. apply IH. intros q J. apply A. right. exact J.
    - apply IH. intros q J. apply A. right. exact J. }
  destruct H as [(p & I & L & E)|(p & I & L & E)].
  - rewrite (discounted_fails eval d1 eval (o1 m1)); [reflexivity|exact A1|]. exists p. split; [apply (Permutation_in p (Permutation_sym (I1 m1))); exact I|]. auto.
  - destruct (TOT (o1 m1) d1 (gof_Z 0) A1) as (r & ->). destruct r as [r|]; cbn [rbind]; [|reflexivity]. rewrite (discounted_fails eval d2 eval (o2 m2)); [reflexivity|exact A2|]. exists p. split; [apply (Permutation_in p (Permutation_sym (I2 m2))); exact I|]. auto.
Qed.

(** ** C160: the itemised value *)
Open Scope Z_scope.
Lemma numbered_app : forall {A} (l l' : list A) i, numbered i (l ++ l') = (numbered i l ++ numbered (i + Z.of_nat (length l)) l')%list.
Proof.
  intros A. induction l as [|a l IH]; intros l' i; cbn [app numbered length]; [rewrite Z.add_0_r; reflexivity|]. rewrite IH. do 2 f_equal. f_equal. lia.
Qed.
Definition shown (times : option f32) (p : odt * f32) : odt * f32 := (fst p, match times with Some f => gmul (snd p) f | None => snd p end).
Lemma swap_listed_is : forall times eval disc l i r, (forall p, In p l -> od_day eval <= od_day (fst p)) -> (forall k, In k (map fst (nr_amounts r)) -> k < i) -> (forall k, In k (map fst (nr_probs r)) -> k < i) ->
  swap_listed times l i eval disc r =
  rbind (discounted l eval disc eval (nr_npv r)) (fun x => Ret (ROk (i + Z.of_nat (length l), NpvResult x (nr_amounts r ++ numbered i (map (shown times) l)) (nr_probs r ++ numbered i (map (fun p => (fst p, gof_Z 1)) l))))).
Proof.
  intros times eval disc l. induction l as [|[d x] l IH]; intros i r A B C.
  - cbn. rewrite !app_nil_r, Z.add_0_r. destruct r; reflexivity.
  - cbn [swap_listed discounted]. pose proof (A (d, x) (or_introl eq_refl)) as Ad. cbn [fst] in Ad. rewrite (proj2 (Z.leb_le _ _) Ad).
    assert (NA : ~ In i (map fst (nr_amounts r))) by (intro Q; apply B in Q; lia). assert (NP : ~ In i (map fst (nr_probs r))) by (intro Q; apply C in Q; lia).
    assert (G : forall s, swap_listed times l (i + 1) eval disc (NpvResult s (hm_insert i (d, match times with Some f => gmul x f | None => x end) (nr_amounts r)) (hm_insert i (d, gof_Z 1) (nr_probs r))) =
      rbind (discounted l eval disc eval s) (fun x0 => Ret (ROk (i + Z.of_nat (length ((d, x) :: l)), NpvResult x0 (nr_amounts r ++ numbered i (map (shown times) ((d, x) :: l))) (nr_probs r ++ numbered i (map (fun p => (fst p, gof_Z 1)) ((d, x) :: l))))))).
    { intro s. rewrite (hm_append i _ (nr_amounts r)) by exact NA. rewrite (hm_append i (d, gof_Z 1)) by exact NP. rewrite IH; cbn [nr_amounts nr_probs nr_npv].
      - cbn [numbered map fst snd length]. unfold shown at 2. cbn [fst snd]. rewrite <- !app_assoc. replace (i + 1 + Z.of_nat (length l)) with (i + Z.of_nat (Datatypes.S (length l))) by lia. reflexivity.
      - intros p I. apply A. right. exact I.
      - intros k I. rewrite map_app in I. apply in_app_or in I. destruct I as [I|[I|[]]]; [apply B in I; lia|cbn in I; lia].
      - intros k I. rewrite map_app in I. apply in_app_or in I. destruct I as [I|[I|[]]]; [apply C in I; lia|cbn in I; lia]. }
    destruct (od_day eval <? od_day d).
    + destruct (discount_at eval disc d) as [[y|]| |]; cbn [rbind nr_npv nr_amounts nr_probs]; try reflexivity. apply G.
    + cbn [rbind]. apply G.
Qed.
Lemma add_due : forall pricing d x m0, od_day pricing <= od_day d -> (forall p, In p m0 -> od_day pricing <= od_day (fst p)) -> forall p, In p (cash_add d x m0) -> od_day pricing <= od_day (fst p).
Proof.
  intros pricing d x. induction m0 as [|[e v] m0 IH]; intros L H p I.
  - destruct I as [<-|[]]. exact L.
  - cbn [cash_add] in I. destruct (instant e =? instant d).
    + destruct I as [<-|I]; [exact (H (e, v) (or_introl eq_refl))|apply H; right; exact I].
    + destruct I as [<-|I]; [exact (H (e, v) (or_introl eq_refl))|]. apply IH; [exact L| |exact I]. intros q J. apply H. right. exact J.
Qed.
Lemma put_due : forall pricing d x m0, od_day pricing <= od_day d -> (forall p, In p m0 -> od_day pricing <= od_day (fst p)) -> forall p, In p (date_insert d x m0) -> od_day pricing <= od_day (fst p).
Proof.
  intros pricing d x. induction m0 as [|[e v] m0 IH]; intros L H p I.
  - destruct I as [<-|[]]. exact L.
  - cbn [date_insert] in I. destruct (instant e =? instant d).
    + destruct I as [<-|I]; [exact (H (e, v) (or_introl eq_refl))|apply H; right; exact I].
    + destruct I as [<-|I]; [exact (H (e, v) (or_introl eq_refl))|]. apply IH; [exact L| |exact I]. intros q J. apply H. right. exact J.
Qed.
Lemma fixed_due : forall s eval m, fixed_cashflows s eval = Ret (ROk m) -> forall p, In p m -> od_day eval <= od_day (fst p).
Proof.
  intros s eval m. unfold fixed_cashflows. set (initial := match sw_init_fixed s with Some v => v | None => gof_Z 1 end).
  set (r0 := if (od_day eval <=? od_day (sw_effective s)) && some (sw_init_fixed s) then date_insert (sw_effective s) initial [] else []).
  set (r1 := if od_day eval <=? od_day (sw_maturity s) then match sw_last_fixed s with Some v => date_insert (sw_maturity s) (gneg v) r0 | None => r0 end else r0).
  assert (A0 : forall p, In p r0 -> od_day eval <= od_day (fst p)).
  { unfold r0. destruct (Z.leb_spec (od_day eval) (od_day (sw_effective s))) as [L|L]; [|intros p []]. destruct (some (sw_init_fixed s)); [|intros p []]. intros p [<-|[]]. exact L. }
  assert (A1 : forall p, In p r1 -> od_day eval <= od_day (fst p)).
  { unfold r1. destruct (Z.leb_spec (od_day eval) (od_day (sw_maturity s))) as [L|L]; [|exact A0]. destruct (sw_last_fixed s); [|exact A0]. apply put_due; assumption. }
  assert (RW : forall rate rows m0 m1, (forall p, In p m0 -> od_day eval <= od_day (fst p)) -> fixed_loop s rate initial rows eval m0 = Ret (ROk m1) -> forall p, In p m1 -> od_day eval <= od_day (fst p)).
  { intro rate. induction rows as [|r rows IH]; intros m0 m1 H E; cbn [fixed_loop] in E.
    - assert (m0 = m1) by congruence. subst m1. exact H.
    - destruct (Z.ltb_spec (od_day (payment_date (rw_dates r))) (od_day eval)) as [L|L]; [exact (IH m0 m1 H E)|].
      destruct (year_fraction _ _ _ _) as [[f|]| |]; cbn [rbind] in E; try discriminate E. refine (IH _ m1 _ E). apply add_due; assumption. }
  destruct (sw_rate s) as [rate|]; [|intro E; assert (r1 = m) by congruence; subst m; exact A1].
  destruct (empty (sw_fixed_rows s)); [intro E; assert (r1 = m) by congruence; subst m; exact A1|]. intro E. exact (RW rate _ r1 m A1 E).
Qed.
Lemma float_due : forall f_ln s eval pricing fwd past m, float_cashflows f_ln s eval pricing fwd past = Ret (ROk m) -> forall p, In p m -> od_day pricing <= od_day (fst p).
Proof.
  intros f_ln s eval pricing fwd past m. unfold float_cashflows.
  destruct (match (if od_day pricing <=? od_day (sw_effective s) then sw_init_float s else None) with Some v => (v, date_insert (sw_effective s) (gneg v) []) | None => (gof_Z 1, []) end) as [initial r0] eqn:E0.
  set (r1 := if od_day pricing <=? od_day (sw_maturity s) then match sw_last_float s with Some v => date_insert (sw_maturity s) v r0 | None => r0 end else r0).
  assert (A0 : forall p, In p r0 -> od_day pricing <= od_day (fst p)).
  { destruct (Z.leb_spec (od_day pricing) (od_day (sw_effective s))) as [L|L]; [destruct (sw_init_float s) as [v|]|]; injection E0 as <- <-; intros p I; try destruct I. { subst p. exact L. } destruct H. }
  assert (A1 : forall p, In p r1 -> od_day pricing <= od_day (fst p)).
  { unfold r1. destruct (Z.leb_spec (od_day pricing) (od_day (sw_maturity s))) as [L|L]; [|exact A0]. destruct (sw_last_float s); [|exact A0]. apply put_due; assumption. }
  assert (RW : forall tenor rows m0 m1, (forall p, In p m0 -> od_day pricing <= od_day (fst p)) -> float_loop f_ln s tenor initial rows eval pricing fwd past m0 = Ret (ROk m1) -> forall p, In p m1 -> od_day pricing <= od_day (fst p)).
  { intro tenor. induction rows as [|r rows IH]; intros m0 m1 H E; cbn [float_loop] in E.
    - assert (m0 = m1) by congruence. subst m1. exact H.
    - destruct (Z.ltb_spec (od_day (payment_date (rw_dates r))) (od_day pricing)) as [L|L]; [exact (IH m0 m1 H E)|]. destruct fwd as [fc|]; [|discriminate E].
      destruct (coupon_amount _ _ _ _ _ _ _ _ _ _ _ _) as [[f|]| |]; cbn [rbind] in E; try discriminate E. refine (IH _ m1 _ E). apply add_due; assumption. }
  destruct (sw_index s) as [tenor|]; [|intro E; assert (r1 = m) by congruence; subst m; exact A1].
  destruct (empty (sw_float_rows s)); [intro E; assert (r1 = m) by congruence; subst m; exact A1|]. intro E. exact (RW tenor _ r1 m A1 E).
Qed.
(** the same value as [npv]; the flows of the fixed side, then those of the
    floating side at the rate of exchange, numbered from 0, each with
    probability 1 *)
Theorem c160_items : forall f_ln o1 o2 eval d1 d2 fwd past fx s, iterates o1 -> iterates o2 ->
  let R := match fx with Some x => x | None => gof_Z 1 end in
  (forall m1 m2 x, fixed_cashflows s eval = Ret (ROk m1) -> float_cashflows f_ln s eval eval fwd past = Ret (ROk m2) -> swap_npv f_ln o1 o2 eval d1 d2 fwd past fx s = Ret (ROk x) ->
     let all := (o1 m1 ++ map (fun p => (fst p, gmul (snd p) R)) (o2 m2))%list in
     swap_npv_result f_ln o1 o2 eval d1 d2 fwd past fx s = Ret (ROk (NpvResult x (numbered 0 all) (numbered 0 (map (fun p => (fst p, gof_Z 1)) all))))) /\
  (swap_npv f_ln o1 o2 eval d1 d2 fwd past fx s = Ret RErr -> swap_npv_result f_ln o1 o2 eval d1 d2 fwd past fx s = Ret RErr).
Proof.
  intros f_ln o1 o2 eval d1 d2 fwd past fx s I1 I2 R. unfold swap_npv, leg_values, swap_npv_result.
  destruct (fixed_cashflows s eval) as [[n1|]| |] eqn:C1; cbn [rbind]; try (split; [intros m1 m2 x Q; discriminate Q|intro; congruence]).
  destruct (float_cashflows f_ln s eval eval fwd past) as [[n2|]| |] eqn:C2; cbn [rbind]; try (split; [intros m1 m2 x _ Q; discriminate Q|intro; congruence]).
  assert (D1 : forall p, In p (o1 n1) -> od_day eval <= od_day (fst p)) by (intros p I; apply (fixed_due s eval n1 C1); apply (Permutation_in p (I1 n1)); exact I).
  assert (D2 : forall p, In p (o2 n2) -> od_day eval <= od_day (fst p)) by (intros p I; apply (float_due f_ln s eval eval fwd past n2 C2); apply (Permutation_in p (I2 n2)); exact I).
  rewrite (swap_listed_is None eval d1 (o1 n1)); [|exact D1|intros k []|intros k []]. cbn [nr_npv nr_amounts nr_probs app].
  destruct (discounted (o1 n1) eval d1 eval (gof_Z 0)) as [[s1|]| |]; cbn [rbind]; try (split; [intros m1 m2 x _ _ Q; discriminate Q|intro Q; congruence]).
  assert (KB : forall (A : Type) (l : list A) k, In k (map fst (numbered 0 l)) -> k < 0 + Z.of_nat (length l)).
  { intros A l. assert (G : forall l' i k, In k (map fst (@numbered A i l')) -> k < i + Z.of_nat (length l')). { induction l' as [|a l' IH]; intros i k I; [destruct I|]. cbn [numbered map fst length] in *. destruct I as [<-|I]; [lia|]. apply IH in I. lia. } intros k. apply G. }
  cbn [nr_amounts nr_probs nr_npv]. rewrite (swap_listed_is (Some (fx_rate fx)) eval d2 (o2 n2)); [|exact D2| |]; cbn [nr_amounts nr_probs nr_npv].
  2: { intros k I. apply KB in I. rewrite map_length in I. exact I. }
  2: { intros k I. apply KB in I. rewrite map_length in I. exact I. }
  destruct (discounted (o2 n2) eval d2 eval (gof_Z 0)) as [[s2|]| |]; cbn [rbind nr_npv nr_amounts nr_probs fst snd]; try (split; [intros m1 m2 x _ _ Q; discriminate Q|intro Q; congruence]).
  split; [|intro Q; discriminate Q]. intros m1 m2 x Q1 Q2 Q3. assert (m1 = n1) by congruence. assert (m2 = n2) by congruence. subst m1 m2. injection Q3 as <-. cbn zeta.
  assert (E1 : map (shown None) (o1 n1) = o1 n1) by (rewrite <- (map_id (o1 n1)) at 2; apply map_ext; intros [d v]; reflexivity). rewrite E1.
  rewrite (map_app (fun p => (fst p, gof_Z 1)) (o1 n1)). rewrite !numbered_app. rewrite map_length, map_map. cbn [fst]. unfold shown, R, fx_rate. reflexivity.
Qed.
(** what is then expected on each day, if no two flows fall on one point in
    time, is what is listed *)
Theorem c160_expected : forall order x all, iterates order -> NoDup (map (fun p => instant (fst p)) all) -> Forall (fun p => finite (snd p)) all ->
  exists l, expected_coupons order (NpvResult x (numbered 0 all) (numbered 0 (map (fun p => (fst p, gof_Z 1)) all))) = ROk l /\ Permutation l all.
Proof. intros order x all I ND FF. apply (c148_expected (fun l => l) order all x); try assumption. intro l. apply Permutation_refl. Qed.
(** REFUTED otherwise: of the two flows of a forward, both at maturity, only
    one is expected, whichever is met last *)
Theorem c160_forward_refuted : forall f_ln o1 o2 eval d1 d2 fwd past fx s w1 w2 r, iterates o1 -> iterates o2 -> sw_init_fixed s = None -> sw_init_float s = None -> sw_rate s = None -> sw_index s = None -> sw_last_fixed s = Some w1 -> sw_last_float s = Some w2 ->
  od_day eval <= od_day (sw_maturity s) -> finite w1 -> finite (gmul w2 fx) -> swap_npv_result f_ln o1 o2 eval d1 d2 fwd past (Some fx) s = Ret (ROk r) ->
  expected_coupons (fun l => l) r = ROk [(sw_maturity s, gmul w2 fx)] /\ expected_coupons (@rev _) r = ROk [(sw_maturity s, gneg w1)].
Proof.
  intros f_ln o1 o2 eval d1 d2 fwd past fx s w1 w2 r I1 I2 A1 A2 A3 A4 L1 L2 D F1 F2 E.
  assert (E1 : fixed_cashflows s eval = Ret (ROk [(sw_maturity s, gneg w1)])).
  { unfold fixed_cashflows. rewrite A1, A3, L1. cbn [some]. rewrite andb_false_r, (proj2 (Z.leb_le _ _)) by lia. reflexivity. }
  assert (E2 : float_cashflows f_ln s eval eval fwd past = Ret (ROk [(sw_maturity s, w2)])).
  { unfold float_cashflows. rewrite A2, A4, L2. rewrite (proj2 (Z.leb_le (od_day eval) (od_day (sw_maturity s)))) by lia. destruct (od_day eval <=? od_day (sw_effective s)); reflexivity. }
  assert (O1 : o1 [(sw_maturity s, gneg w1)] = [(sw_maturity s, gneg w1)]) by (apply Permutation_length_1_inv, Permutation_sym, I1).
  assert (O2 : o2 [(sw_maturity s, w2)] = [(sw_maturity s, w2)]) by (apply Permutation_length_1_inv, Permutation_sym, I2).
  assert (X : exists x, swap_npv f_ln o1 o2 eval d1 d2 fwd past (Some fx) s = Ret (ROk x)).
  { revert E. unfold swap_npv, leg_values, swap_npv_result. rewrite E1, E2. cbn [rbind]. rewrite O1, O2. cbn [swap_listed discounted]. rewrite (proj2 (Z.leb_le (od_day eval) (od_day (sw_maturity s)))) by lia.
    destruct (od_day eval <? od_day (sw_maturity s)); [|cbn [rbind]; intros _; eexists; reflexivity].
    destruct (discount_at eval d1 (sw_maturity s)) as [[y1|]| |]; cbn [rbind]; intro Q; try discriminate Q. destruct (discount_at eval d2 (sw_maturity s)) as [[y2|]| |]; cbn [rbind] in Q |- *; try discriminate Q. eexists. reflexivity. }
  destruct X as (x & X). destruct (c160_items f_ln o1 o2 eval d1 d2 fwd past (Some fx) s I1 I2) as [H _]. specialize (H _ _ _ E1 E2 X). cbn zeta in H. rewrite O1, O2 in H. cbn [map app fst snd numbered] in H.
  rewrite E in H. assert (r = NpvResult x [(0, (sw_maturity s, gneg w1)); (0 + 1, (sw_maturity s, gmul w2 fx))] [(0, (sw_maturity s, gof_Z 1)); (0 + 1, (sw_maturity s, gof_Z 1))]) by congruence. subst r.
  destruct (fin_neg 24 128 w1 (value w1) (conj F1 eq_refl)) as [FN _].
  unfold expected_coupons. cbn [nr_amounts nr_probs rev app expected_loop lookup]. change (0 + 1) with 1. change (0 =? 0) with true. change (0 =? 1) with false. change (1 =? 1) with true. cbn iota. rewrite (times_one _ FN), (times_one _ F2). cbn [date_insert]. rewrite Z.eqb_refl. auto.
Qed.

(** ** C161: the exposure to currencies *)
Open Scope R_scope.
(** what is worth in each currency, times the notional; one sum if both sides
    are in one currency; nothing in other currencies *)
Theorem c161_exposure : forall f_ln o1 o2 eval d1 d2 fwd past s m1 m2, iterates o1 -> iterates o2 -> fixed_cashflows s eval = Ret (ROk m1) -> float_cashflows f_ln s eval eval fwd past = Ret (ROk m2) ->
  Forall (good_flow eval d1 eval) m1 -> Forall (good_flow eval d2 eval) m2 -> (Z.of_nat (length (future eval m1)) <= 1048576)%Z -> (Z.of_nat (length (future eval m2)) <= 1048576)%Z -> usual (sw_notional s) ->
  let n1 := INR (length (future eval m1)) in let n2 := INR (length (future eval m2)) in
  let P1 := present_value (factor_on eval d1) (future eval m1) in let P2 := present_value (factor_on eval d2) (future eval m2) in
  let C1 := present_size (factor_on eval d1) (future eval m1) in let C2 := present_size (factor_on eval d2) (future eval m2) in let N := value (sw_notional s) in
  exists m, swap_exposure f_ln o1 o2 eval d1 d2 fwd past s = Ret (ROk m) /\
    (sw_fixed_ccy s <> sw_float_ccy s -> exists x1 x2, exposure_in m (sw_fixed_ccy s) = Some x1 /\ exposure_in m (sw_float_ccy s) = Some x2 /\ finite x1 /\ finite x2 /\
       Rabs (value x1 - P1 * N) <= Rabs N * C1 * ((n1 + 2) / 2 ^ 23) + (n1 + 1) / 2 ^ 117 /\ Rabs (value x2 - P2 * N) <= Rabs N * C2 * ((n2 + 2) / 2 ^ 23) + (n2 + 1) / 2 ^ 117) /\
    (sw_fixed_ccy s = sw_float_ccy s -> exists x, exposure_in m (sw_fixed_ccy s) = Some x /\ finite x /\
       Rabs (value x - (P1 + P2) * N) <= Rabs N * C1 * ((n1 + 3) / 2 ^ 23) + Rabs N * C2 * ((n2 + 3) / 2 ^ 23) + (n1 + n2 + 2) / 2 ^ 116) /\
    (forall c, c <> sw_fixed_ccy s -> c <> sw_float_ccy s -> exposure_in m c = None).
Proof.
  intros f_ln o1 o2 eval d1 d2 fwd past s m1 m2 I1 I2 E1 E2 G1 G2 N1 N2 UN n1 n2 P1 P2 C1 C2 N.
  destruct (legs_value f_ln o1 o2 eval d1 d2 fwd past s m1 m2 I1 I2 E1 E2 G1 G2 N1 N2) as (s1 & v1 & s2 & v2 & EL & W1 & W2 & Q1 & Q2). cbn zeta in Q1, Q2. fold n1 C1 P1 in Q1. fold n2 C2 P2 in Q2.
  destruct (size_range eval d1 eval m1 G1 N1) as [S1 S1']. destruct (size_range eval d2 eval m2 G2 N2) as [S2 S2']. fold C1 P1 in S1, S1'. fold C2 P2 in S2, S2'.
  pose proof (count_range _ N1 : 0 <= n1 <= 1048576) as K1. pose proof (count_range _ N2 : 0 <= n2 <= 1048576) as K2.
  destruct (scaled s1 (sw_notional s) v1 _ _ n1 W1 UN K1 S1 S1' Q1) as (p1 & Fp1 & Hp1 & Bp1 & Cp1). destruct (scaled s2 (sw_notional s) v2 _ _ n2 W2 UN K2 S2 S2' Q2) as (p2 & Fp2 & Hp2 & Bp2 & Cp2). fold N in Hp1, Hp2, Cp1, Cp2.
  unfold swap_exposure. rewrite EL. cbn [rbind fst snd]. eexists. split; [reflexivity|]. cbn [ccy_add]. split; [|split].
  - intro NE. destruct (ccy_cases (sw_fixed_ccy s) (sw_float_ccy s)) as [[_ X]|[X _]]; [contradiction|]. rewrite X. exists (gmul s1 (sw_notional s)), (gmul s2 (sw_notional s)).
    unfold exposure_in. cbn [filter fst snd]. rewrite X. destruct (ccy_cases (sw_fixed_ccy s) (sw_fixed_ccy s)) as [[Y _]|[_ Y]]; [rewrite Y|congruence]. destruct (ccy_cases (sw_float_ccy s) (sw_float_ccy s)) as [[Z _]|[_ Z]]; [rewrite Z|congruence].
    split; [reflexivity|]. split; [reflexivity|]. destruct Fp1 as [F1 V1]. destruct Fp2 as [F2 V2]. split; [exact F1|]. split; [exact F2|]. unfold value at 1 2. rewrite V1, V2. auto.
  - intro EQ. rewrite <- EQ. destruct (ccy_cases (sw_fixed_ccy s) (sw_fixed_ccy s)) as [[Y _]|[_ Y]]; [rewrite Y|congruence].
    destruct (plus_close _ _ _ _ _ _ _ _ Fp1 Fp2 Hp1 Hp2 Bp1 Bp2) as (z & [Fz Vz] & Hz). exists (gadd (gmul s1 (sw_notional s)) (gmul s2 (sw_notional s))). unfold exposure_in. cbn [filter fst snd]. rewrite Y. split; [reflexivity|]. split; [exact Fz|].
    unfold value at 1. rewrite Vz. rewrite Rmult_plus_distr_r. apply Rle_trans with (1 := Hz).
    assert (P23 : 2 ^ 23 = 8388608) by (rewrite pow_IZR; reflexivity). rewrite P23 in *. pose proof (Rabs_pos N) as PN.
    assert (G : forall C n A, 0 <= Rabs N * C -> 0 <= n <= 1048576 -> Rabs A <= Rabs N * C -> Rabs N * C * ((n + 2) / 8388608) * (1 + e24) + Rabs A * e24 <= Rabs N * C * ((n + 3) / 8388608)).
    { intros C n A HC Hn HA. assert (Rabs A * e24 <= Rabs N * C * e24) by (apply Rmult_le_compat_r; [unfold e24; lra|exact HA]).
      apply Rle_trans with (Rabs N * C * ((n + 2) / 8388608 * (1 + e24) + e24)); [lra|]. apply Rmult_le_compat_l; [exact HC|]. unfold e24. lra. }
    pose proof (G C1 n1 (P1 * N) ltac:(apply Rmult_le_pos; lra) K1 Cp1) as X1. pose proof (G C2 n2 (P2 * N) ltac:(apply Rmult_le_pos; lra) K2 Cp2) as X2.
    assert (X3 : ((n1 + 1) / 2 ^ 117 + (n2 + 1) / 2 ^ 117) * (1 + e24) <= (n1 + n2 + 2) / 2 ^ 116).
    { change (2 ^ 117) with (2 * 2 ^ 116). pose proof (two_n 116) as W. assert (HH : (n1 + 1) / (2 * 2 ^ 116) + (n2 + 1) / (2 * 2 ^ 116) = (n1 + n2 + 2) / 2 ^ 116 * / 2) by (field; lra). rewrite HH.
      assert (0 <= (n1 + n2 + 2) / 2 ^ 116) by (unfold Rdiv; apply Rmult_le_pos; [lra|left; apply Rinv_0_lt_compat; exact W]). rewrite Rmult_assoc. rewrite <- (Rmult_1_r ((n1 + n2 + 2) / 2 ^ 116)) at 2. apply Rmult_le_compat_l; [assumption|unfold e24; lra]. }
    set (T1 := (n1 + 1) / 2 ^ 117) in *. set (T2 := (n2 + 1) / 2 ^ 117) in *. set (T3 := (n1 + n2 + 2) / 2 ^ 116) in *. set (Y1 := Rabs N * C1 * ((n1 + 2) / 8388608)) in *. set (Y2 := Rabs N * C2 * ((n2 + 2) / 8388608)) in *.
    set (Z1 := Rabs N * C1 * ((n1 + 3) / 8388608)) in *. set (Z2 := Rabs N * C2 * ((n2 + 3) / 8388608)) in *. clearbody T1 T2 T3 Y1 Y2 Z1 Z2. lra.
  - intros c H1 H2. unfold exposure_in. destruct (ccy_cases (sw_fixed_ccy s) c) as [[_ X]|[X _]]; [congruence|]. destruct (ccy_cases (sw_float_ccy s) c) as [[_ Y]|[Y _]]; [congruence|].
    destruct (ccy_eqb (sw_fixed_ccy s) (sw_float_ccy s)); cbn [filter fst]; rewrite X; [reflexivity|]. rewrite Y. reflexivity.
Qed.
(** the exposures, at the rate of exchange, add up to the value times the
    notional *)
Theorem c161_adds_up : forall f_ln o1 o2 eval d1 d2 fwd past fx s m1 m2, iterates o1 -> iterates o2 -> fixed_cashflows s eval = Ret (ROk m1) -> float_cashflows f_ln s eval eval fwd past = Ret (ROk m2) ->
  Forall (good_flow eval d1 eval) m1 -> Forall (good_flow eval d2 eval) m2 -> (Z.of_nat (length (future eval m1)) <= 1048576)%Z -> (Z.of_nat (length (future eval m2)) <= 1048576)%Z -> usual (sw_notional s) -> usual fx -> sw_fixed_ccy s <> sw_float_ccy s ->
  let n1 := INR (length (future eval m1)) in let n2 := INR (length (future eval m2)) in
  let C1 := present_size (factor_on eval d1) (future eval m1) in let C2 := present_size (factor_on eval d2) (future eval m2) in let N := value (sw_notional s) in let R := value fx in
  exists x m x1 x2, swap_npv f_ln o1 o2 eval d1 d2 fwd past (Some fx) s = Ret (ROk x) /\ swap_exposure f_ln o1 o2 eval d1 d2 fwd past s = Ret (ROk m) /\ exposure_in m (sw_fixed_ccy s) = Some x1 /\ exposure_in m (sw_float_ccy s) = Some x2 /\
    Rabs (value x1 + R * value x2 - value x * N) <= Rabs N * C1 * ((2 * n1 + 4) / 2 ^ 23) + Rabs N * Rabs R * C2 * ((2 * n2 + 5) / 2 ^ 23) + (n1 + n2 + 2) / 2 ^ 116 * (1 + Rabs R + Rabs N).
Proof.
  intros f_ln o1 o2 eval d1 d2 fwd past fx s m1 m2 I1 I2 E1 E2 G1 G2 N1 N2 UN UX NE n1 n2 C1 C2 N R.
  destruct (c159_value f_ln o1 o2 eval d1 d2 fwd past (Some fx) s m1 m2 I1 I2 E1 E2 G1 G2 N1 N2 (or_intror (ex_intro _ fx (conj eq_refl UX)))) as (x & EX & _ & VX).
  destruct (c161_exposure f_ln o1 o2 eval d1 d2 fwd past s m1 m2 I1 I2 E1 E2 G1 G2 N1 N2 UN) as (m & EM & H & _ & _). destruct (H NE) as (x1 & x2 & H1 & H2 & _ & _ & V1 & V2). clear H.
  exists x, m, x1, x2. split; [exact EX|]. split; [exact EM|]. split; [exact H1|]. split; [exact H2|]. cbn zeta in VX. fold n1 n2 C1 C2 N R in VX, V1, V2.
  set (P1 := present_value (factor_on eval d1) (future eval m1)) in *. set (P2 := present_value (factor_on eval d2) (future eval m2)) in *.
  replace (value x1 + R * value x2 - value x * N) with ((value x1 - P1 * N) + (R * (value x2 - P2 * N)) - (value x - (P1 + R * P2)) * N) by ring.
  apply Rle_trans with (1 := Rabs_triang _ _). rewrite Rabs_Ropp. apply Rle_trans with (Rabs (value x1 - P1 * N) + Rabs (R * (value x2 - P2 * N)) + Rabs ((value x - (P1 + R * P2)) * N)); [apply Rplus_le_compat_r; apply Rabs_triang|].
  rewrite !Rabs_mult. pose proof (Rabs_pos R) as PR. pose proof (Rabs_pos N) as PN.
  apply (Rmult_le_compat_l (Rabs R) _ _ PR) in V2. apply (Rmult_le_compat_r (Rabs N) _ _ PN) in VX.
  pose proof (count_range _ N1 : 0 <= n1 <= 1048576) as K1. pose proof (count_range _ N2 : 0 <= n2 <= 1048576) as K2.
  change (2 ^ 117) with (2 * 2 ^ 116) in *. pose proof (two_n 116) as W. assert (HW : 0 < / 2 ^ 116) by (apply Rinv_0_lt_compat; exact W). assert (HH : forall q, q / (2 * 2 ^ 116) = q * / 2 ^ 116 * / 2) by (intro; field; lra). rewrite !HH in *.
  unfold Rdiv in *. set (h := / 2 ^ 116) in *. set (g := / 2 ^ 23) in *. clearbody h g.
  assert (Z1 : 0 <= n1 * h) by (apply Rmult_le_pos; lra). assert (Z2 : 0 <= n2 * h) by (apply Rmult_le_pos; lra).
  assert (Z3 : 0 <= n1 * h * Rabs R) by (apply Rmult_le_pos; lra). assert (Z4 : 0 <= n2 * h * Rabs R) by (apply Rmult_le_pos; lra). assert (Z5 : 0 <= h * Rabs R) by (apply Rmult_le_pos; lra). assert (Z6 : 0 <= h * Rabs N) by (apply Rmult_le_pos; lra).
  lra.
Qed.
(** an error of the value is one of the exposure *)
Theorem c161_errors : forall f_ln o1 o2 eval d1 d2 fwd past fx s, swap_npv f_ln o1 o2 eval d1 d2 fwd past fx s = Ret RErr <-> swap_exposure f_ln o1 o2 eval d1 d2 fwd past s = Ret RErr.
Proof.
  intros. unfold swap_npv, swap_exposure. destruct (leg_values f_ln o1 o2 eval d1 d2 fwd past s) as [[v|]| |]; cbn [rbind]; split; intro Q; try discriminate Q; reflexivity.
Qed.

(** ** The hypotheses are met *)
Definition good_map (r : outcome (rresult (list (odt * f32)))) (n : nat) : bool :=
  match r with
  | Ret (ROk m) => forallb (fun p => is_finite (snd p) && gle (gneg (gof_Z 2000)) (snd p) && gle (snd p) (gof_Z 2000) && time_ok (fst p)) m && (length (future ex_eval m) =? n)%nat
  | _ => false
  end.
Lemma good_map_ok : forall r n c t9, good_map r n = true -> reached an_exp c -> Forall (fun r => 0 <= value r <= 0.1) (cv_rates c) -> nth_error (cv_times c) 28 = Some t9 -> 99 <= value t9 ->
  exists m, r = Ret (ROk m) /\ Forall (good_flow ex_eval c ex_eval) m /\ length (future ex_eval m) = n /\ Forall (fun p => finite (snd p)) m.
Proof.
  intros [[m|]| |] n c t9 G H RR H9 B; try discriminate G. exists m. split; [reflexivity|]. unfold good_map in G. apply andb_true_iff in G. destruct G as [G L]. apply Nat.eqb_eq in L. rewrite forallb_forall in G.
  assert (X : Forall (good_flow ex_eval c ex_eval) m).
  { apply List.Forall_forall. intros p I. specialize (G p I). apply andb_true_iff in G. destruct G as [G T]. apply andb_true_iff in G. destruct G as [G G2]. apply andb_true_iff in G. destruct G as [F G1].
    destruct (small_fin 2000 ltac:(lia)) as [F2 R2]. unfold real_of in R2. destruct (fin_neg 24 128 (gof_Z 2000) _ (conj F2 eq_refl)) as [F3 R3]. rewrite R2 in R3.
    apply (proj1 (fin_le 24 128 _ _ _ _ (conj F3 R3) (conj F eq_refl))) in G1. apply (proj1 (fin_le 24 128 _ _ _ _ (conj F eq_refl) (conj F2 R2))) in G2.
    split; [exact F|]. split; [unfold value; rewrite p30; apply Rabs_le; lra|]. intros _. exact (time_priced c t9 _ H RR H9 B T). }
  split; [exact X|]. split; [exact L|]. apply List.Forall_forall. intros p I. rewrite List.Forall_forall in X. apply (X p I).
Qed.
Example c159_hypotheses_met : exists f_exp c m1 m2, good_exp f_exp /\ reached f_exp c /\ fixed_cashflows ex_crs ex_eval = Ret (ROk m1) /\ float_cashflows (fun x => x) ex_crs ex_eval ex_eval (Some c) (Some ex_recorded) = Ret (ROk m2) /\
  Forall (good_flow ex_eval c ex_eval) m1 /\ Forall (good_flow ex_eval c ex_eval) m2 /\ length (future ex_eval m1) = 1%nat /\ length (future ex_eval m2) = 2%nat /\ usual (gof_Z 100) /\ usual (sw_notional ex_crs) /\ sw_fixed_ccy ex_crs <> sw_float_ccy ex_crs.
Proof.
  destruct ex_curve as (c & t9 & H & RR & H9 & B). 
  destruct (good_map_ok (fixed_cashflows ex_crs ex_eval) 1 c t9 ltac:(vm_compute; reflexivity) H RR H9 B) as (m1 & E1 & G1 & L1 & _).
  destruct (good_map_ok (float_cashflows (fun x => x) ex_crs ex_eval ex_eval (Some c) (Some ex_recorded)) 2 c t9 ltac:(vm_compute; reflexivity) H RR H9 B) as (m2 & E2 & G2 & L2 & _).
  exists an_exp, c, m1, m2. split; [exact an_exp_good|]. split; [exact H|]. split; [exact E1|]. split; [exact E2|]. split; [exact G1|]. split; [exact G2|]. split; [exact L1|]. split; [exact L2|]. split; [apply usual_small; lia|]. split; [apply usual_small; lia|discriminate].
Qed.
Example c159_forward_hypotheses_met : exists f_exp c, good_exp f_exp /\ reached f_exp c /\ (od_day ex_eval < od_day (sw_maturity ex_forward))%Z /\ usual (gof_Z 1300) /\ usual (gof_Z 2) /\ priced ex_eval c (sw_maturity ex_forward) /\
  sw_init_fixed ex_forward = None /\ sw_init_float ex_forward = None /\ sw_rate ex_forward = None /\ sw_index ex_forward = None /\ sw_last_fixed ex_forward = Some (gof_Z 1300) /\ sw_last_float ex_forward = Some (gof_Z 2).
Proof.
  destruct ex_curve as (c & t9 & H & RR & H9 & B). exists an_exp, c. split; [exact an_exp_good|]. split; [exact H|]. split; [vm_compute; reflexivity|].
  split. { destruct (small_fin 1300 ltac:(lia)) as [F13 R13]. split; [exact F13|]. unfold value, real_of in *. rewrite R13, p30, Rabs_pos_eq; lra. } split; [apply usual_small; lia|]. split; [apply (time_priced c t9 _ H RR H9 B); vm_compute; reflexivity|]. repeat split.
Qed.
(** the swap of c159 has a value, hence a list; the dates of its flows differ
    within each side *)
Example c160_hypotheses_met : exists c m1 m2 x all, fixed_cashflows ex_crs ex_eval = Ret (ROk m1) /\ float_cashflows (fun x => x) ex_crs ex_eval ex_eval (Some c) (Some ex_recorded) = Ret (ROk m2) /\
  swap_npv (fun x => x) (fun l => l) (@rev _) ex_eval c c (Some c) (Some ex_recorded) (Some (gof_Z 100)) ex_crs = Ret (ROk x) /\ all = m1 /\ length all = 2%nat /\ NoDup (map (fun p => instant (fst p)) all) /\ Forall (fun p => finite (snd p)) all.
Proof.
  destruct ex_curve as (c & t9 & H & RR & H9 & B). 
  destruct (good_map_ok (fixed_cashflows ex_crs ex_eval) 1 c t9 ltac:(vm_compute; reflexivity) H RR H9 B) as (m1 & E1 & G1 & L1 & F1).
  destruct (good_map_ok (float_cashflows (fun x => x) ex_crs ex_eval ex_eval (Some c) (Some ex_recorded)) 2 c t9 ltac:(vm_compute; reflexivity) H RR H9 B) as (m2 & E2 & G2 & L2 & _).
  assert (I1 : iterates (fun l : list (odt * f32) => l)) by (intro; apply Permutation_refl). assert (I2 : iterates (@rev (odt * f32))) by (intro; apply Permutation_sym, Permutation_rev).
  destruct (c159_value (fun x => x) (fun l => l) (@rev _) ex_eval c c (Some c) (Some ex_recorded) (Some (gof_Z 100)) ex_crs m1 m2 I1 I2 E1 E2 G1 G2 ltac:(rewrite L1; lia) ltac:(rewrite L2; lia)) as (x & EX & _).
  { right. exists (gof_Z 100). split; [reflexivity|apply usual_small; lia]. }
  assert (Q : match fixed_cashflows ex_crs ex_eval with Ret (ROk m) => (length m =? 2)%nat && match map (fun p => instant (fst p)) m with [a; b] => negb (a =? b)%Z | _ => false end | _ => false end = true) by (vm_compute; reflexivity).
  rewrite E1 in Q. apply andb_true_iff in Q. destruct Q as [Q1 Q2]. apply Nat.eqb_eq in Q1.
  exists c, m1, m2, x, m1. split; [exact E1|]. split; [exact E2|]. split; [exact EX|]. split; [reflexivity|]. split; [exact Q1|]. split; [|exact F1].
  destruct (map (fun p => instant (fst p)) m1) as [|a [|b [|? ?]]]; try discriminate Q2. apply negb_true_iff, Z.eqb_neq in Q2. constructor; [intros [Y|[]]; congruence|]. constructor; [intros []|constructor].
Qed.
(** a list for the forward *)
Example c160_forward_hypotheses_met : exists c r, swap_npv_result (fun x => x) (fun l => l) (fun l => l) ex_eval c c None None (Some (gof_Z 100)) ex_forward = Ret (ROk r) /\ finite (gmul (gof_Z 2) (gof_Z 100) : f32) /\ (od_day ex_eval <= od_day (sw_maturity ex_forward))%Z.
Proof.
  destruct c159_forward_hypotheses_met as (f_exp & c & _ & _ & D & U1 & U2 & P & A1 & A2 & A3 & A4 & L1 & L2).
  assert (I1 : iterates (fun l : list (odt * f32) => l)) by (intro; apply Permutation_refl).
  destruct (c159_forward (fun x => x) (fun l => l) (fun l => l) ex_eval c c None None (gof_Z 100) ex_forward _ _ I1 I1 A1 A2 A3 A4 L1 L2 D U1 U2 P P (usual_small 100 ltac:(lia))) as (x & EX & _).
  destruct (c160_items (fun x => x) (fun l => l) (fun l => l) ex_eval c c None None (Some (gof_Z 100)) ex_forward I1 I1) as [K _].
  destruct (c157_no_rate ex_forward ex_eval (or_introl eq_refl) eq_refl) as (m1 & E1 & _). destruct (c158_no_index (fun x => x) ex_forward ex_eval ex_eval None None (or_introl eq_refl) eq_refl) as (m2 & E2 & _).
  exists c. eexists. split; [exact (K m1 m2 x E1 E2 EX)|]. split; [reflexivity|vm_compute; discriminate].
Qed.
Example c161_hypotheses_met : exists f_exp c m1 m2, good_exp f_exp /\ reached f_exp c /\ fixed_cashflows ex_crs ex_eval = Ret (ROk m1) /\ float_cashflows (fun x => x) ex_crs ex_eval ex_eval (Some c) (Some ex_recorded) = Ret (ROk m2) /\
  Forall (good_flow ex_eval c ex_eval) m1 /\ Forall (good_flow ex_eval c ex_eval) m2 /\ usual (sw_notional ex_crs) /\ usual (gof_Z 100) /\ sw_fixed_ccy ex_crs <> sw_float_ccy ex_crs.
Proof. destruct c159_hypotheses_met as (f & c & m1 & m2 & A & B & C & D & E & F & _ & _ & G & H & I). exists f, c, m1, m2. auto 10. Qed.
Print Assumptions c159_value.
Print Assumptions c159_orders.
Print Assumptions c159_forward.
Print Assumptions c159_errors.
Print Assumptions c160_items.
Print Assumptions c160_expected.
Print Assumptions c160_forward_refuted.
Print Assumptions c161_exposure.
Print Assumptions c161_adds_up.
Print Assumptions c161_errors.
