(** QEngRealProps.v -- C185: how close a greek is to the difference quotient it
    stands for, and what that quotient is for a quadratic price. *)
From Coq Require Import ZArith Arith Ascii String.
From Coq Require Import List Bool Lia Reals Lra.
From Flocq Require Import Core IEEE754.BinarySingleNaN.
From Flocq Require Mult_error.
From Verif Require Import Base FloatModel FloatFacts KrxModel QFindSpec QInterpSpec QFloatErr QLinProps QOptProofs QEngModel QEngSpec QEngProps QEngDeltaProps QCurveSpec.
Open Scope R_scope.

(** ** A number and what it stands for: within [r] of it and [t] besides *)
Definition near (v x r t : R) : Prop := Rabs (v - x) <= r * Rabs x + t.
Definition room : R := two100 * 1000000.
Lemma near_abs : forall v x r t, near v x r t -> Rabs v <= (1 + r) * Rabs x + t.
Proof. intros v x r t H. unfold near in H. pose proof (Rabs_triang (v - x) x) as T. replace (v - x + x) with v in T by ring. lra. Qed.
Lemma near_scale : forall v x r t c, near v x r t -> near (v * c) (x * c) r (t * Rabs c).
Proof. intros v x r t c H. unfold near in *. replace (v * c - x * c) with ((v - x) * c) by ring. rewrite !Rabs_mult. pose proof (Rabs_pos c). pose proof (Rmult_le_compat_r (Rabs c) _ _ H0 H). lra. Qed.
Lemma near_round : forall v x r t d s, near v x r t -> Rabs d <= e24 -> 0 <= r <= 1 -> 0 <= t -> near (v * (1 + d) + s) x (r + 2 * e24) (2 * t + Rabs s).
Proof.
  intros v x r t d s H D R T. pose proof (near_abs _ _ _ _ H) as A. unfold near in *. replace (v * (1 + d) + s - x) with ((v - x) + v * d + s) by ring. pose proof (Rabs_triang (v - x + v * d) s) as T1. pose proof (Rabs_triang (v - x) (v * d)) as T2.
  assert (VD : Rabs (v * d) <= ((1 + r) * Rabs x + t) * e24) by (rewrite Rabs_mult; apply Rmult_le_compat; try apply Rabs_pos; assumption). pose proof e24_pos as E0. assert (E1 : e24 <= 1) by (unfold e24; lra).
  assert (P1 : (1 + r) * Rabs x * e24 <= 2 * Rabs x * e24). { apply Rmult_le_compat_r; [lra|]. apply Rmult_le_compat_r; [apply Rabs_pos|lra]. } assert (P2 : t * e24 <= t * 1) by (apply Rmult_le_compat_l; assumption). rewrite Rmult_plus_distr_r in VD. lra.
Qed.
Lemma mul_near : forall a b va vb x r t, fn a va -> fn b vb -> near va x r t -> 0 <= r <= 1 -> 0 <= t -> Rabs (va * vb) <= room -> exists v, fn (gmul a b) v /\ near v (x * vb) (r + 2 * e24) (2 * (t * Rabs vb) + tiny).
Proof.
  intros a b va vb x r t A B N R T H. destruct (mul_err a b va vb A B (two100_127 _ H)) as (v & d & s & F & D & S & E). exists v. split; [exact F|]. rewrite E.
  pose proof (near_round (va * vb) (x * vb) r (t * Rabs vb) d s (near_scale _ _ _ _ vb N) D R ltac:(apply Rmult_le_pos; [exact T|apply Rabs_pos])) as Q. unfold near in *. lra.
Qed.
Lemma div_near : forall a b va vb x r t, fn a va -> fn b vb -> vb <> 0 -> near va x r t -> 0 <= r <= 1 -> 0 <= t -> Rabs (va / vb) <= room -> exists v, fn (gdiv a b) v /\ near v (x / vb) (r + 2 * e24) (2 * (t * Rabs (/ vb)) + tiny).
Proof.
  intros a b va vb x r t A B NZ N R T H. destruct (div_err a b va vb A B NZ (two100_127 _ H)) as (v & d & s & F & D & S & E). exists v. split; [exact F|]. rewrite E.
  pose proof (near_round (va / vb) (x / vb) r (t * Rabs (/ vb)) d s (near_scale _ _ _ _ (/ vb) N) D R ltac:(apply Rmult_le_pos; [exact T|apply Rabs_pos])) as Q. unfold near in *. lra.
Qed.
Lemma prod_le : forall a b A B, Rabs a <= A -> Rabs b <= B -> Rabs (a * b) <= A * B.
Proof. intros a b A B HA HB. rewrite Rabs_mult. apply Rmult_le_compat; try apply Rabs_pos; assumption. Qed.
Lemma room_big : 2 ^ 110 <= room.
Proof. unfold room, two100. rewrite <- mult_IZR, pow_IZR. apply IZR_le. apply Z.leb_le. reflexivity. Qed.
Lemma tiny_110 : tiny <= / 2 ^ 140.
Proof. unfold tiny. apply Rle_trans with (bpow radix2 (-140)); [apply bpow_le; lia|]. right. change (-140)%Z with (- (140))%Z. rewrite bpow_opp. f_equal. rewrite <- (IZR_Zpower radix2 140) by lia. rewrite pow_IZR. reflexivity. Qed.

(** ** One difference quotient *)
(** prices, bump, unit and notional are of ordinary size *)
Definition ordinary (b unit n : f32) : Prop := finite b /\ finite unit /\ finite n /\ / 2 ^ 20 <= Rabs (value b) /\ Rabs (value unit) <= 1 /\ Rabs (value n) <= 2 ^ 40.
Definition price_ok (x : f32) : Prop := finite x /\ Rabs (value x) <= 2 ^ 40.
Theorem c185_slope : forall up npv b unit n, price_ok up -> price_ok npv -> ordinary b unit n ->
  finite (slope up npv b unit n) /\ Rabs (value (slope up npv b unit n) - (value up - value npv) / value b * value unit * value n) <= 7 * / 2 ^ 24 * Rabs ((value up - value npv) / value b * value unit * value n) + / 2 ^ 90.
Proof.
  intros up npv b unit n [Fu Bu] [Fn Bn] (Fb & Fk & Fm & Lb & Uk & Um). pose proof room_big as RB. pose proof e24_pos as E0. assert (E1 : e24 = / 2 ^ 24) by (unfold e24; f_equal; lra).
  set (x := value up - value npv). assert (BX : Rabs x <= 2 ^ 41). { unfold x. pose proof (Rabs_triang (value up) (- value npv)) as T. rewrite Rabs_Ropp in T. replace (value up - value npv) with (value up + - value npv) by ring. lra. }
  destruct (sub_err up npv (value up) (value npv) (conj Fu eq_refl) (conj Fn eq_refl)) as (v1 & d1 & F1 & D1 & V1). { apply two100_127. fold x. fold room. lra. } fold x in V1.
  assert (N1 : near v1 x e24 0). { unfold near. rewrite V1. replace (x * (1 + d1) - x) with (d1 * x) by ring. rewrite Rabs_mult. pose proof (Rmult_le_compat_r (Rabs x) _ _ (Rabs_pos x) D1). lra. }
  assert (BV1 : Rabs v1 <= 2 ^ 42). { pose proof (near_abs _ _ _ _ N1). assert ((1 + e24) * Rabs x <= 2 * Rabs x) by (apply Rmult_le_compat_r; [apply Rabs_pos|unfold e24; lra]). lra. }
  assert (NZ : value b <> 0). { intro Q. rewrite Q, Rabs_R0 in Lb. assert (0 < / 2 ^ 20) by (apply Rinv_0_lt_compat; lra). lra. }
  assert (IB : Rabs (/ value b) <= 2 ^ 20). { rewrite Rabs_inv. rewrite <- (Rinv_inv (2 ^ 20)). apply Rinv_le; [apply Rinv_0_lt_compat; lra|exact Lb]. }
  destruct (div_near _ _ v1 (value b) x e24 0 F1 (conj Fb eq_refl) NZ N1 ltac:(unfold e24; lra) ltac:(lra)) as (v2 & F2 & N2). { pose proof (prod_le v1 (/ value b) _ _ BV1 IB). unfold Rdiv. lra. }
  assert (BQ : Rabs (x / value b) <= 2 ^ 61) by (pose proof (prod_le x (/ value b) _ _ BX IB); unfold Rdiv; lra). pose proof tiny_110 as TI. pose proof tiny_pos as TP.
  assert (BV2 : Rabs v2 <= 2 ^ 63). { pose proof (near_abs _ _ _ _ N2). assert ((1 + (e24 + 2 * e24)) * Rabs (x / value b) <= 2 * Rabs (x / value b)) by (apply Rmult_le_compat_r; [apply Rabs_pos|unfold e24; lra]). assert (/ 2 ^ 140 <= 1) by lra. lra. }
  destruct (mul_near _ _ v2 (value unit) (x / value b) (e24 + 2 * e24) (2 * (0 * Rabs (/ value b)) + tiny) F2 (conj Fk eq_refl) N2 ltac:(unfold e24; lra) ltac:(lra)) as (v3 & F3 & N3). { pose proof (prod_le v2 (value unit) _ _ BV2 Uk). lra. }
  assert (BQ3 : Rabs (x / value b * value unit) <= 2 ^ 61) by (pose proof (prod_le _ (value unit) _ _ BQ Uk); lra).
  assert (TAU3 : 0 <= 2 * ((2 * (0 * Rabs (/ value b)) + tiny) * Rabs (value unit)) + tiny <= / 2 ^ 138). { replace (2 * (0 * Rabs (/ value b)) + tiny) with tiny by ring. pose proof (Rabs_pos (value unit)). assert (tiny * Rabs (value unit) <= tiny * 1) by (apply Rmult_le_compat_l; lra). assert (0 <= tiny * Rabs (value unit)) by (apply Rmult_le_pos; lra). split; lra. }
  set (t3 := 2 * ((2 * (0 * Rabs (/ value b)) + tiny) * Rabs (value unit)) + tiny) in *.
  assert (BV3 : Rabs v3 <= 2 ^ 63). { pose proof (near_abs _ _ _ _ N3). assert ((1 + (e24 + 2 * e24 + 2 * e24)) * Rabs (x / value b * value unit) <= 2 * Rabs (x / value b * value unit)) by (apply Rmult_le_compat_r; [apply Rabs_pos|unfold e24; lra]). assert (/ 2 ^ 138 <= 1) by lra. lra. }
  destruct (mul_near _ _ v3 (value n) (x / value b * value unit) (e24 + 2 * e24 + 2 * e24) t3 F3 (conj Fm eq_refl) N3 ltac:(unfold e24; lra) ltac:(lra)) as (v4 & F4 & N4). { pose proof (prod_le v3 (value n) _ _ BV3 Um). lra. }
  destruct F4 as [F4 V4]. split; [exact F4|]. change (value (slope up npv b unit n) = v4) in V4. rewrite V4. unfold near in N4. rewrite <- E1.
  assert (TN : t3 * Rabs (value n) <= / 2 ^ 138 * 2 ^ 40) by (apply Rmult_le_compat; try lra; apply Rabs_pos). assert (/ 2 ^ 138 * 2 ^ 40 <= / 2 ^ 98) by lra.
  replace (e24 + 2 * e24 + 2 * e24 + 2 * e24) with (7 * e24) in N4 by ring. assert (2 * / 2 ^ 98 + / 2 ^ 140 <= / 2 ^ 90) by lra. lra.
Qed.

(** ** The units *)
Lemma unit_near : forall k, (1 <= k <= 2 ^ 20)%Z -> finite (gdiv (gof_Z 1) (gof_Z k) : f32) /\ Rabs (value (gdiv (gof_Z 1) (gof_Z k) : f32) - / IZR k) <= / 2 ^ 24 * / IZR k.
Proof.
  intros k K. assert (Q : forall z, (0 <= z <= 2 ^ 20)%Z -> fn (gof_Z z : f32) (IZR z)) by (intros z Z; destruct (small_fin z ltac:(lia)) as [F V]; split; [exact F|exact V]).
  assert (K1 : 1 <= IZR k) by (apply (IZR_le 1); lia). assert (K2 : IZR k <= 2 ^ 20) by (rewrite pow_IZR; apply IZR_le; lia). assert (I0 : 0 < / IZR k) by (apply Rinv_0_lt_compat; lra). assert (I1 : / IZR k <= 1) by (rewrite <- Rinv_1; apply Rinv_le; lra). assert (I2 : / 2 ^ 20 <= / IZR k) by (apply Rinv_le; lra).
  pose proof small100. pose proof big100. destruct (div_rel _ _ _ _ (Q 1%Z ltac:(lia)) (Q k ltac:(lia)) ltac:(lra)) as (d & D & F & V). { unfold Rdiv. rewrite Rmult_1_l, Rabs_pos_eq by lra. lra. }
  split; [exact F|]. change (value (gdiv (gof_Z 1) (gof_Z k) : f32) = 1 / IZR k * (1 + d)) in V. rewrite V. replace (1 / IZR k * (1 + d) - / IZR k) with (d * / IZR k) by (unfold Rdiv; ring). rewrite Rabs_mult, (Rabs_pos_eq (/ IZR k)) by lra. apply Rmult_le_compat_r; [lra|]. unfold e24 in D. lra.
Qed.
Theorem c185_units : (finite pct /\ Rabs (value pct - / 100) <= / 2 ^ 24 * / 100) /\ (finite bp /\ Rabs (value bp - / 10000) <= / 2 ^ 24 * / 10000) /\ finite half /\ value half = / 2.
Proof.
  split; [exact (unit_near 100 ltac:(lia))|]. split; [exact (unit_near 10000 ltac:(lia))|]. destruct (small_fin 1 ltac:(lia)) as [F1 V1]. destruct (small_fin 2 ltac:(lia)) as [F2 V2].
  pose proof (fin_div 24 128 _ _ _ _ (conj F1 V1) (conj F2 V2) ltac:(lra)) as D. assert (H : Rabs (1 / 2) <= huge 128) by (rewrite hug; apply two100_127; rewrite Rabs_pos_eq by lra; pose proof two100_pos; lra). specialize (D H). rewrite (rnd_fix 24 128) in D; [destruct D as [D1 D2]; split; [exact D1|]; change (value half = 1 / 2) in D2; lra|].
  replace (1 / 2) with (bpow radix2 (-1)) by (cbn; lra). apply generic_format_bpow. vm_compute. discriminate.
Qed.
(** ** Delta *)
Lemma twice : forall r : f32, finite r -> Rabs (value r) <= 2 ^ 40 -> finite (gmul (gof_Z 2) r : f32) /\ value (gmul (gof_Z 2) r) = 2 * value r.
Proof.
  intros r F B. destruct (small_fin 2 ltac:(lia)) as [F2 V2]. assert (H : Rabs (2 * value r) <= huge 128) by (rewrite hug; apply two100_127; rewrite Rabs_mult, (Rabs_pos_eq 2) by lra; pose proof room_big; unfold room in *; lra).
  destruct (fin_mul 24 128 (gof_Z 2) r 2 (value r) (conj F2 V2) (conj F eq_refl) H) as [FM VM]. split; [exact FM|]. change (value (gmul (gof_Z 2) r) = rnd 24 128 (2 * value r)) in VM. rewrite VM. apply rnd_fix.
  replace (2 * value r) with (value r * bpow radix2 1) by (cbn; ring). apply (Mult_error.mult_bpow_pos_exact_FLT radix2 (-149) 24); [|lia]. exact (generic_format_B2R 24 128 r).
Qed.
Theorem c185_delta : forall up down r n, price_ok up -> price_ok down -> finite r -> / 2 ^ 20 <= value r <= 1 -> finite n -> Rabs (value n) <= 2 ^ 40 ->
  let d := (value up - value down) / (2 * value r) * / 100 * value n in
  finite (bump_delta up down r n) /\ Rabs (value (bump_delta up down r n) - d) <= 9 * / 2 ^ 24 * Rabs d + / 2 ^ 90.
Proof.
  intros up down r n U D Fr [L1 L2] Fn Bn d. assert (I0 : 0 < / 2 ^ 20) by (apply Rinv_0_lt_compat; lra). destruct (twice r Fr ltac:(rewrite Rabs_pos_eq; lra)) as [F2 V2]. destruct c185_units as ((Fp & Vp) & _ & _). apply Rabs_le_inv in Vp.
  destruct (c185_slope up down (gmul (gof_Z 2) r) pct n U D) as [F V]. { split; [exact F2|]. split; [exact Fp|]. split; [exact Fn|]. rewrite V2. split; [rewrite Rabs_pos_eq; lra|]. split; [rewrite Rabs_pos_eq; lra|exact Bn]. }
  split; [exact F|]. change (bump_delta up down r n) with (slope up down (gmul (gof_Z 2) r) pct n). rewrite V2 in V. set (v := value (slope up down (gmul (gof_Z 2) r) pct n)) in *. set (q := (value up - value down) / (2 * value r)) in *.
  set (h := value pct - / 100). assert (HH : Rabs h <= / 2 ^ 24 * / 100) by (apply Rabs_le; unfold h; lra). assert (E : q * value pct * value n = d * (1 + 100 * h)) by (unfold d, h; field).
  rewrite E in V. assert (A1 : Rabs (1 + 100 * h) <= 1 + / 2 ^ 24). { apply Rabs_le_inv in HH. apply Rabs_le. lra. } rewrite Rabs_mult in V.
  assert (A2 : Rabs (v - d) <= Rabs (v - d * (1 + 100 * h)) + Rabs (d * (100 * h))). { replace (v - d) with (v - d * (1 + 100 * h) + d * (100 * h)) by ring. apply Rabs_triang. }
  rewrite Rabs_mult in A2. assert (A3 : Rabs (100 * h) <= / 2 ^ 24) by (apply Rabs_le_inv in HH; apply Rabs_le; lra).
  pose proof (Rmult_le_compat_l (Rabs d) _ _ (Rabs_pos d) A1) as A4. pose proof (Rmult_le_compat_l (Rabs d) _ _ (Rabs_pos d) A3) as A5. pose proof (Rabs_pos d). lra.
Qed.
(** ** Gamma *)
Theorem c185_gamma : forall up mid down r n (M : R), finite up -> finite mid -> finite down -> Rabs (value up) <= M -> Rabs (value mid) <= M -> Rabs (value down) <= M -> M <= 2 ^ 40 -> finite r -> / 2 ^ 20 <= value r <= 1 -> finite n -> Rabs (value n) <= 2 ^ 20 ->
  let scale := / 2 * (/ 100 / value r) ^ 2 * value n in
  finite (bump_gamma up mid down r n) /\ Rabs (value (bump_gamma up mid down r n) - (value up - 2 * value mid + value down) * scale) <= 160 * / 2 ^ 24 * (M * Rabs scale) + / 2 ^ 70.
Proof.
  intros up mid down r n M Fu Fm Fd Bu Bm Bd BM Fr [L1 L2] Fn Bn scale. pose proof room_big as RB. pose proof tiny_110 as TI. pose proof tiny_pos as TP. pose proof e24_pos as E0. assert (E1 : e24 = / 2 ^ 24) by (unfold e24; f_equal; lra). assert (E2 : e24 <= / 16777216) by (unfold e24; lra). assert (I0 : 0 < / 2 ^ 20) by (apply Rinv_0_lt_compat; lra). assert (M0 : 0 <= M) by (pose proof (Rabs_pos (value up)); lra).
  apply Rabs_le_inv in Bu. apply Rabs_le_inv in Bm. apply Rabs_le_inv in Bd.
  destruct (sub_err up mid _ _ (conj Fu eq_refl) (conj Fm eq_refl)) as (v1 & d1 & F1 & D1 & V1). { apply two100_127. fold room. apply Rabs_le. unfold value in *. lra. }
  change (v1 = (value up - value mid) * (1 + d1)) in V1. assert (X1 : Rabs ((value up - value mid) * d1) <= 2 * M * e24) by (apply prod_le; [apply Rabs_le; lra|exact D1]). apply Rabs_le_inv in X1.
  assert (B1 : -(3 * M) <= v1 <= 3 * M). { assert (2 * M * e24 <= 2 * M * / 16777216) by (apply Rmult_le_compat_l; lra). rewrite V1, Rmult_plus_distr_l, Rmult_1_r. lra. }
  destruct (add_err _ down v1 _ F1 (conj Fd eq_refl)) as (v2 & d2 & F2 & D2 & V2). { apply two100_127. fold room. apply Rabs_le. unfold value in *. lra. }
  change (v2 = (v1 + value down) * (1 + d2)) in V2. assert (X2 : Rabs ((v1 + value down) * d2) <= 4 * M * e24) by (apply prod_le; [apply Rabs_le; lra|exact D2]). apply Rabs_le_inv in X2.
  assert (B2 : -(5 * M) <= v2 <= 5 * M). { assert (4 * M * e24 <= 4 * M * / 16777216) by (apply Rmult_le_compat_l; lra). rewrite V2, Rmult_plus_distr_l, Rmult_1_r. lra. }
  destruct (sub_err _ mid v2 _ F2 (conj Fm eq_refl)) as (v3 & d3 & F3 & D3 & V3). { apply two100_127. fold room. apply Rabs_le. unfold value in *. lra. }
  change (v3 = (v2 - value mid) * (1 + d3)) in V3. assert (X3 : Rabs ((v2 - value mid) * d3) <= 6 * M * e24) by (apply prod_le; [apply Rabs_le; lra|exact D3]). apply Rabs_le_inv in X3.
  set (x := value up - 2 * value mid + value down). assert (N3 : near v3 x 0 (12 * M * e24)). { unfold near. rewrite Rmult_0_l, Rplus_0_l. apply Rabs_le. unfold x. rewrite V3, Rmult_plus_distr_l, Rmult_1_r. rewrite V2, Rmult_plus_distr_l, Rmult_1_r. rewrite V2, Rmult_plus_distr_l, Rmult_1_r in X3. rewrite V1, Rmult_plus_distr_l, Rmult_1_r. rewrite V1, Rmult_plus_distr_l, Rmult_1_r in X2, X3. lra. }
  assert (BX : Rabs x <= 4 * M) by (unfold x; apply Rabs_le; lra).
  (* pct / r *)
  destruct c185_units as ((Fp & Vp) & _ & Fh & Vh). set (c := / 100). assert (CP : near (value pct) c e24 0). { unfold near, c. rewrite (Rabs_pos_eq (/ 100)) by lra. rewrite E1. lra. }
  assert (BP : Rabs (value pct) <= 1). { apply Rabs_le_inv in Vp. apply Rabs_le. lra. } assert (IR : 0 < / value r <= 2 ^ 20). { split; [apply Rinv_0_lt_compat; lra|]. rewrite <- (Rinv_inv (2 ^ 20)). apply Rinv_le; lra. } assert (IRA : Rabs (/ value r) <= 2 ^ 20) by (rewrite Rabs_pos_eq; lra).
  destruct (div_near pct r (value pct) (value r) c e24 0 (conj Fp eq_refl) (conj Fr eq_refl) ltac:(lra) CP ltac:(unfold e24; lra) ltac:(lra)) as (w & Fw & Nw). { pose proof (prod_le (value pct) (/ value r) _ _ BP IRA). unfold Rdiv. lra. }
  replace (2 * (0 * Rabs (/ value r)) + tiny) with tiny in Nw by ring. set (q := c / value r) in *. assert (Q0 : 0 < q <= 2 ^ 20). { unfold q, c, Rdiv. split; [apply Rmult_lt_0_compat; lra|]. pose proof (Rmult_le_compat (/ 100) 1 (/ value r) (2 ^ 20)). lra. }
  assert (QL : / 100 <= q). { unfold q, c, Rdiv. assert (1 <= / value r) by (rewrite <- Rinv_1; apply Rinv_le; lra). pose proof (Rmult_le_compat_l (/ 100) 1 (/ value r) ltac:(lra) H). lra. }
  (* w = q up to 4 roundings *)
  assert (NW : near w q (4 * e24) 0). { unfold near in *. rewrite (Rabs_pos_eq q) in * by lra. assert (tiny <= e24 * q). { apply Rle_trans with (/ 2 ^ 140); [exact TI|]. apply Rle_trans with (e24 * / 100); [rewrite E1; lra|apply Rmult_le_compat_l; lra]. } lra. }
  pose proof NW as NW'. unfold near in NW'. rewrite (Rabs_pos_eq q) in NW' by lra. apply Rabs_le_inv in NW'. assert (E4 : 4 * e24 * q <= 4 * / 16777216 * q) by (apply Rmult_le_compat_r; lra).
  assert (BW : 0 < w <= 2 ^ 21) by lra.
  (* the three products, with the second factor replaced by what it stands for *)
  destruct (mul_near _ _ v3 w x 0 (12 * M * e24) F3 Fw N3 ltac:(lra) ltac:(apply Rmult_le_pos; lra)) as (v4 & F4 & N4). { assert (BV3 : Rabs v3 <= 2 ^ 43). { pose proof (near_abs _ _ _ _ N3) as A. assert (12 * M * e24 <= 12 * M * / 16777216) by (apply Rmult_le_compat_l; lra). lra. } pose proof (prod_le v3 w _ (2 ^ 21) BV3 ltac:(rewrite Rabs_pos_eq; lra)). lra. }
  destruct (mul_near half (gdiv pct r) (value half) w (/ 2) 0 0 (conj Fh eq_refl) Fw) as (h & Fhh & Nh); [unfold near; rewrite Vh; replace (/ 2 - / 2) with 0 by ring; rewrite Rabs_R0; lra|lra|lra|rewrite Vh, Rabs_pos_eq; lra|].
  replace (2 * (0 * Rabs w) + tiny) with tiny in Nh by ring.
  (* errors relative to M q *)
  assert (N4' : Rabs (v4 - x * q) <= 50 * e24 * (M * q) + tiny).
  { unfold near in N4. rewrite (Rabs_pos_eq w) in N4 by lra. rewrite Rabs_mult, (Rabs_pos_eq w) in N4 by lra. replace (v4 - x * q) with (v4 - x * w + x * (w - q)) by ring. pose proof (Rabs_triang (v4 - x * w) (x * (w - q))) as T. assert (T2 : Rabs (x * (w - q)) <= 4 * M * (4 * e24 * q)) by (apply prod_le; [exact BX|apply Rabs_le; lra]).
    assert (WQ : w <= q * (1 + / 100)) by lra. assert (T3 : M * w <= M * (q * (1 + / 100))) by (apply Rmult_le_compat_l; lra). assert (T4 : Rabs x * w <= 4 * M * (q * (1 + / 100))) by (apply Rmult_le_compat; try lra; apply Rabs_pos).
    pose proof (Rmult_le_compat_l e24 _ _ ltac:(lra) T3) as T5. pose proof (Rmult_le_compat_l e24 _ _ ltac:(lra) T4) as T6. assert (0 <= e24 * (M * q)) by (apply Rmult_le_pos; [lra|apply Rmult_le_pos; lra]). lra. }
  assert (B4 : Rabs v4 <= 2 ^ 63). { assert (Rabs (x * q) <= 4 * M * 2 ^ 20) by (apply prod_le; [exact BX|rewrite Rabs_pos_eq; lra]). pose proof (Rabs_triang (v4 - x * q) (x * q)) as T. replace (v4 - x * q + x * q) with v4 in T by ring. assert (M * q <= 2 ^ 40 * 2 ^ 20) by (apply Rmult_le_compat; lra). assert (e24 * (M * q) <= / 16777216 * (2 ^ 40 * 2 ^ 20)) by (apply Rmult_le_compat; try lra; apply Rmult_le_pos; lra). lra. }
  assert (Nh' : Rabs (h - q / 2) <= 5 * e24 * q).
  { unfold near in Nh. rewrite (Rabs_pos_eq (/ 2 * w)) in Nh by lra. replace (h - q / 2) with (h - / 2 * w + / 2 * (w - q)) by field. pose proof (Rabs_triang (h - / 2 * w) (/ 2 * (w - q))) as T. assert (T2 : Rabs (/ 2 * (w - q)) <= / 2 * (4 * e24 * q)) by (apply prod_le; [rewrite Rabs_pos_eq; lra|apply Rabs_le; lra]). assert (tiny <= e24 * q). { apply Rle_trans with (/ 2 ^ 140); [exact TI|]. apply Rle_trans with (e24 * / 100); [rewrite E1; lra|apply Rmult_le_compat_l; lra]. } assert (w * e24 <= 2 * q * e24) by (apply Rmult_le_compat_r; lra). lra. }
  assert (Bh : Rabs h <= q). { pose proof (Rabs_triang (h - q / 2) (q / 2)) as T. replace (h - q / 2 + q / 2) with h in T by ring. rewrite (Rabs_pos_eq (q / 2)) in T by lra. assert (5 * e24 * q <= 5 * / 16777216 * q) by (apply Rmult_le_compat_r; lra). lra. }
  destruct (mul_err _ _ v4 h F4 Fhh) as (v5 & d5 & t5 & F5 & D5 & T5 & V5). { apply two100_127. fold room. pose proof (prod_le v4 h _ _ B4 Bh). assert (2 ^ 63 * q <= 2 ^ 63 * 2 ^ 20) by (apply Rmult_le_compat_l; lra). lra. }
  (* g = x q q / 2 *)
  set (g := x * q * (q / 2)). assert (MQ : 0 <= M * q) by (apply Rmult_le_pos; lra). assert (MQQ : 0 <= M * q * q) by (apply Rmult_le_pos; lra).
  assert (BXQ : Rabs (x * q) <= 4 * M * q) by (apply prod_le; [exact BX|rewrite Rabs_pos_eq; lra]).
  assert (G1 : Rabs (v4 * h - g) <= 71 * e24 * (M * q * q) + tiny * q).
  { unfold g. replace (v4 * h - x * q * (q / 2)) with ((v4 - x * q) * h + x * q * (h - q / 2)) by ring. pose proof (Rabs_triang ((v4 - x * q) * h) (x * q * (h - q / 2))) as T. pose proof (prod_le _ _ _ _ N4' Bh) as P1. pose proof (prod_le _ _ _ _ BXQ Nh') as P2. assert (0 <= e24 * (M * q * q)) by (apply Rmult_le_pos; lra). lra. }
  assert (BG : Rabs g <= 2 * (M * q * q)). { unfold g. pose proof (prod_le (x * q) (q / 2) _ (q / 2) BXQ ltac:(rewrite Rabs_pos_eq; lra)). lra. }
  assert (TQ : tiny * q <= / 2 ^ 140 * 2 ^ 20) by (apply Rmult_le_compat; lra).
  assert (E5 : e24 * (M * q * q) <= / 16777216 * (M * q * q)) by (apply Rmult_le_compat_r; lra).
  assert (G2 : Rabs (v5 - g) <= 75 * e24 * (M * q * q) + / 2 ^ 110).
  { rewrite V5. replace (v4 * h * (1 + d5) + t5 - g) with ((v4 * h - g) + v4 * h * d5 + t5) by ring. pose proof (Rabs_triang (v4 * h - g + v4 * h * d5) t5) as T1. pose proof (Rabs_triang (v4 * h - g) (v4 * h * d5)) as T2.
    assert (BVH : Rabs (v4 * h) <= 3 * (M * q * q) + / 2 ^ 119). { pose proof (Rabs_triang (v4 * h - g) g) as T. replace (v4 * h - g + g) with (v4 * h) in T by ring. lra. } pose proof (prod_le _ _ _ _ BVH D5) as P. assert (/ 2 ^ 119 * e24 <= / 2 ^ 119 * 1) by (apply Rmult_le_compat_l; lra). assert (0 <= e24 * (M * q * q)) by (apply Rmult_le_pos; lra). lra. }
  assert (MQB : M * q * q <= 2 ^ 40 * 2 ^ 20 * 2 ^ 20) by (apply Rmult_le_compat; try lra; apply Rmult_le_compat; lra).
  destruct (mul_err _ n v5 (value n) F5 (conj Fn eq_refl)) as (v6 & d6 & t6 & F6 & D6 & T6 & V6). { apply two100_127. fold room. assert (BV5 : Rabs v5 <= 2 ^ 83). { pose proof (Rabs_triang (v5 - g) g) as T. replace (v5 - g + g) with v5 in T by ring. lra. } pose proof (prod_le _ _ _ _ BV5 Bn). lra. }
  destruct F6 as [F6 W6]. split; [exact F6|]. change (value (bump_gamma up mid down r n) = v6) in W6. rewrite W6. clear W6 F6.
  assert (SG : x * scale = g * value n) by (unfold scale, g, q, c; field; lra). fold x. rewrite SG. set (a := Rabs (value n)). assert (A0 : 0 <= a) by apply Rabs_pos.
  assert (SA : M * Rabs scale = / 2 * (M * q * q * a)). { assert (SQ : scale = / 2 * (q * q) * value n) by (unfold scale, q, c; field; lra). rewrite SQ, Rabs_mult, (Rabs_pos_eq (/ 2 * (q * q))) by (apply Rmult_le_pos; [lra|apply Rmult_le_pos; lra]). fold a. ring. }
  rewrite SA. rewrite V6. replace (v5 * value n * (1 + d6) + t6 - g * value n) with ((v5 - g) * value n + v5 * value n * d6 + t6) by ring. pose proof (Rabs_triang ((v5 - g) * value n + v5 * value n * d6) t6) as T1. pose proof (Rabs_triang ((v5 - g) * value n) (v5 * value n * d6)) as T2.
  pose proof (prod_le _ (value n) _ a G2 ltac:(unfold a; lra)) as P1. assert (BV5 : Rabs v5 <= 3 * (M * q * q) + / 2 ^ 110). { pose proof (Rabs_triang (v5 - g) g) as T. replace (v5 - g + g) with v5 in T by ring. lra. }
  pose proof (prod_le _ (value n) _ a BV5 ltac:(unfold a; lra)) as P2. pose proof (prod_le _ d6 _ _ P2 D6) as P3. fold a in Bn. assert (P4 : / 2 ^ 110 * a <= / 2 ^ 110 * 2 ^ 20) by (apply Rmult_le_compat_l; lra). assert (P5 : / 2 ^ 110 * a * e24 <= / 2 ^ 110 * 2 ^ 20 * 1) by (apply Rmult_le_compat; try lra; apply Rmult_le_pos; lra).
  rewrite <- E1. assert (0 <= e24 * (M * q * q * a)) by (apply Rmult_le_pos; [lra|apply Rmult_le_pos; lra]). lra.
Qed.

(** ** What the quotients are: for a price a + b S + c S^2 the delta is the change
    of the price for a move of one percent to first order, S P'(S) / 100, and the
    gamma its second order term, P''(S) / 2 (S / 100)^2; neither depends on the
    ratio *)
Theorem c185_quadratic : forall a b c S r, r <> 0 -> let P := fun x => a + b * x + c * x ^ 2 in
  (P (S * (1 + r)) - P (S * (1 - r))) / (2 * r) * / 100 = (b + 2 * c * S) * (S / 100) /\
  (P (S * (1 + r)) - 2 * P S + P (S * (1 - r))) * (/ 2 * (/ 100 / r) ^ 2) = / 2 * (2 * c) * (S / 100) ^ 2.
Proof. intros a b c S r N P. unfold P. split; field; exact N. Qed.

Lemma quarter_is : finite (gdiv (gof_Z 1) (gof_Z 4) : f32) /\ value (gdiv (gof_Z 1) (gof_Z 4) : f32) = / 4.
Proof.
  destruct (small_fin 1 ltac:(lia)) as [F1 V1]. destruct (small_fin 4 ltac:(lia)) as [F4 V4].
  assert (Q : Rabs (1 / 4) <= huge 128) by (rewrite hug; apply two100_127; fold room; rewrite Rabs_pos_eq by lra; pose proof room_big; lra).
  destruct (fin_div 24 128 (gof_Z 1) (gof_Z 4) 1 4 (conj F1 V1) (conj F4 V4) ltac:(lra) Q) as [F V]. split; [exact F|]. change (value (gdiv (gof_Z 1) (gof_Z 4) : f32) = rnd 24 128 (1 / 4)) in V. rewrite V. rewrite rnd_fix; [lra|]. replace (1 / 4) with (bpow radix2 (-2)) by (cbn; lra). apply generic_format_bpow. vm_compute. discriminate.
Qed.
(** prices 110, 100 and 92, a quarter, a percent, ten units *)
Example c185_hypotheses_met : let r := gdiv (gof_Z 1) (gof_Z 4) : f32 in price_ok (gof_Z 110) /\ price_ok (gof_Z 100) /\ price_ok (gof_Z 92) /\ ordinary r pct (gof_Z 10) /\ / 2 ^ 20 <= value r <= 1 /\ Rabs (value (gof_Z 10)) <= 2 ^ 20.
Proof.
  intro r. assert (P : forall z, (0 <= z <= 1000)%Z -> price_ok (gof_Z z)). { intros z Z. destruct (small_fin z ltac:(lia)) as [F V]. split; [exact F|]. change (value (gof_Z z) = IZR z) in V. rewrite V, Rabs_pos_eq by (apply IZR_le; lia). apply Rle_trans with 1000; [apply IZR_le; lia|lra]. }
  assert (R : finite r /\ value r = / 4) by exact quarter_is. destruct R as [FR VR]. destruct c185_units as ((FP & VP) & _). apply Rabs_le_inv in VP. destruct (small_fin 10 ltac:(lia)) as [FT VT]. change (value (gof_Z 10) = 10) in VT.
  repeat (split; [apply P; lia|]). rewrite VR, VT. split; [|split; [lra|rewrite Rabs_pos_eq; lra]]. repeat (split; [assumption|]). rewrite VR, VT. rewrite !Rabs_pos_eq by lra. lra.
Qed.

Print Assumptions c185_slope.
Print Assumptions c185_units.
Print Assumptions c185_delta.
Print Assumptions c185_gamma.
Print Assumptions c185_quadratic.
