(** QFloatErr.v -- the rounding errors of f32 operations, with the relative and
    the underflow part. *)
From Coq Require Import ZArith Reals Lra Lia.
From Flocq Require Import Core Relative Plus_error IEEE754.BinarySingleNaN.
From Verif Require Import FloatModel FloatFacts.
Open Scope R_scope.

Notation fn := (fin 24 128).
(** half a unit in the last place of 1, and half the least positive number *)
Definition e24 : R := / 16777216.
Definition tiny : R := bpow radix2 (-150).
Lemma e24_pos : 0 < e24. Proof. unfold e24. lra. Qed.
Lemma tiny_pos : 0 < tiny. Proof. apply bpow_gt_0. Qed.
Lemma hug : huge 128 = bpow radix2 127. Proof. reflexivity. Qed.

Lemma rnd_sum : forall x y : f32, exists d, Rabs d <= e24 /\ rnd 24 128 (B2R x + B2R y) = (B2R x + B2R y) * (1 + d).
Proof.
  intros x y. unfold rnd. change (SpecFloat.fexp 24 128) with (FLT_exp (-149) 24).
  destruct (FLT_plus_error_N_ex radix2 (-149) 24 (fun z => negb (Z.even z)) (B2R x) (B2R y)) as (d & D & E).
  - apply (fmt_B2R 24 128).
  - apply (fmt_B2R 24 128).
  - exists d. split; [|exact E]. apply Rle_trans with (1 := D). unfold u_ro, e24. change (bpow radix2 (- (24) + 1)) with (/ 8388608). 
    replace (/ 2 * / 8388608 / (1 + / 2 * / 8388608)) with (/ 16777217) by field. apply Rinv_le; lra.
Qed.
Lemma rnd_any : forall x, exists d t, Rabs d <= e24 /\ Rabs t <= tiny /\ rnd 24 128 x = x * (1 + d) + t.
Proof.
  intro x. unfold rnd. change (SpecFloat.fexp 24 128) with (FLT_exp (-149) 24).
  destruct (error_N_FLT radix2 (-149) 24 ltac:(lia) (fun z => negb (Z.even z)) x) as (d & t & D & TT & _ & E).
  exists d, t. split; [|split; [|exact E]].
  - apply Rle_trans with (1 := D). unfold e24. change (bpow radix2 (- (24) + 1)) with (/ 8388608). lra.
  - apply Rle_trans with (1 := TT). unfold tiny. replace (-149)%Z with (-150 + 1)%Z by lia. rewrite bpow_plus. change (bpow radix2 1) with 2. lra.
Qed.

Lemma sub_err : forall x y a b, fn x a -> fn y b -> Rabs (a - b) <= bpow radix2 127 -> exists v d, fn (gsub x y) v /\ Rabs d <= e24 /\ v = (a - b) * (1 + d).
Proof.
  intros x y a b Fx Fy H. pose proof (fin_sub 24 128 x y a b Fx Fy H) as F. pose proof (fin_neg 24 128 y b Fy) as Fn.
  destruct (rnd_sum x (gneg y)) as (d & D & E). destruct Fx as [_ <-]. destruct Fn as [_ Q]. rewrite Q in E. exists (rnd 24 128 (B2R x - b)), d. split; [exact F|]. split; [exact D|exact E].
Qed.
Lemma add_err : forall x y a b, fn x a -> fn y b -> Rabs (a + b) <= bpow radix2 127 -> exists v d, fn (gadd x y) v /\ Rabs d <= e24 /\ v = (a + b) * (1 + d).
Proof.
  intros x y a b Fx Fy H. pose proof (fin_add 24 128 x y a b Fx Fy H) as F.
  destruct (rnd_sum x y) as (d & D & E). destruct Fx as [_ <-]. destruct Fy as [_ <-]. eexists _, d. split; [exact F|]. split; [exact D|exact E].
Qed.
Lemma mul_err : forall x y a b, fn x a -> fn y b -> Rabs (a * b) <= bpow radix2 127 ->
  exists v d t, fn (gmul x y) v /\ Rabs d <= e24 /\ Rabs t <= tiny /\ v = a * b * (1 + d) + t.
Proof.
  intros x y a b Fx Fy H. pose proof (fin_mul 24 128 x y a b Fx Fy H) as F. destruct (rnd_any (a * b)) as (d & t & D & TT & E). eexists _, d, t. split; [exact F|]. auto.
Qed.
Lemma div_err : forall x y a b, fn x a -> fn y b -> b <> 0 -> Rabs (a / b) <= bpow radix2 127 ->
  exists v d t, fn (gdiv x y) v /\ Rabs d <= e24 /\ Rabs t <= tiny /\ v = a / b * (1 + d) + t.
Proof.
  intros x y a b Fx Fy N H. pose proof (fin_div 24 128 x y a b Fx Fy N H) as F. destruct (rnd_any (a / b)) as (d & t & D & TT & E). eexists _, d, t. split; [exact F|]. auto.
Qed.

(** products of factors close to 1 *)
Lemma err_mul : forall j k x y, 0 <= j <= 50 -> 0 <= k <= 50 -> Rabs x <= j * e24 -> Rabs y <= k * e24 -> exists z, Rabs z <= (j + k + / 1000) * e24 /\ (1 + x) * (1 + y) = 1 + z.
Proof.
  intros j k x y Hj Hk Hx Hy. exists (x + y + x * y). split; [|ring].
  apply Rle_trans with (Rabs x + Rabs y + Rabs (x * y)).
  - apply Rle_trans with (1 := Rabs_triang _ _). apply Rplus_le_compat_r. apply Rabs_triang.
  - rewrite Rabs_mult. assert (Rabs x * Rabs y <= j * e24 * (k * e24)) by (apply Rmult_le_compat; auto using Rabs_pos).
    assert (j * e24 * (k * e24) <= / 1000 * e24); [|lra]. pose proof e24_pos.
    apply Rle_trans with (50 * e24 * (50 * e24)).
    + apply Rmult_le_compat; [apply Rmult_le_pos; lra|apply Rmult_le_pos; lra| |]; apply Rmult_le_compat_r; lra.
    + unfold e24. lra.
Qed.
Lemma err_inv : forall x, Rabs x <= e24 -> exists z, Rabs z <= 1.001 * e24 /\ / (1 + x) = 1 + z.
Proof.
  intros x Hx. apply Rabs_le_inv in Hx. unfold e24 in Hx. exists (- x / (1 + x)). split; [|field; lra].
  unfold Rdiv. rewrite Rabs_mult, Rabs_Ropp, Rabs_inv. rewrite (Rabs_pos_eq (1 + x)) by lra.
  assert (Rabs x <= e24) by (unfold e24; apply Rabs_le; lra).
  assert (/ (1 + x) <= 1.001).
  { apply Rmult_le_reg_r with (1 + x); [lra|]. rewrite Rinv_l; lra. }
  rewrite Rmult_comm. apply Rmult_le_compat; [left; apply Rinv_0_lt_compat; lra|apply Rabs_pos|assumption|assumption].
Qed.
Lemma near_bound : forall k x t, 0 <= k <= 50 -> Rabs t <= k * e24 -> Rabs (x * (1 + t)) <= 1.001 * Rabs x.
Proof.
  intros k x t Hk Ht. rewrite Rabs_mult. rewrite (Rmult_comm 1.001). apply Rmult_le_compat_l; [apply Rabs_pos|].
  apply Rle_trans with (1 := Rabs_triang _ _). rewrite Rabs_R1. assert (k * e24 <= 50 * e24) by (apply Rmult_le_compat_r; [left; apply e24_pos|lra]). unfold e24 in *. lra.
Qed.

(** ** v + s * (x - a) with s = (w - v) / (b - a) *)
Definition chord (a b u w x : R) : R := u + (w - u) / (b - a) * (x - a).
Definition bmax (u w : R) : R := Rmax (Rabs u) (Rabs w).
Lemma chord_bounds : forall a b u w x M, a < b -> a <= x <= b -> Rabs u <= M -> Rabs w <= M -> Rabs (chord a b u w x) <= M.
Proof.
  intros a b u w x M H [X1 X2] HU HW. unfold chord.
  assert (L : 0 <= (x - a) / (b - a) <= 1).
  { split; [apply Rmult_le_pos; [lra|left; apply Rinv_0_lt_compat; lra]|]. apply Rmult_le_reg_r with (b - a); [lra|]. unfold Rdiv. rewrite Rmult_assoc, Rinv_l by lra. lra. }
  replace ((w - u) / (b - a) * (x - a)) with ((w - u) * ((x - a) / (b - a))) by (field; lra). set (l := (x - a) / (b - a)) in *. clearbody l.
  apply Rabs_le_inv in HU. apply Rabs_le_inv in HW. apply Rabs_le.
  assert (0 <= l * (M - w) /\ 0 <= l * (M + w) /\ 0 <= (1 - l) * (M - u) /\ 0 <= (1 - l) * (M + u)) by (repeat split; apply Rmult_le_pos; lra). lra.
Qed.
Lemma part_bounds : forall a b u w x M, a < b -> a <= x <= b -> Rabs u <= M -> Rabs w <= M -> Rabs ((w - u) / (b - a) * (x - a)) <= 2 * M.
Proof.
  intros a b u w x M H X HU HW. pose proof (chord_bounds a b u w x M H X HU HW) as C. unfold chord in C.
  replace ((w - u) / (b - a) * (x - a)) with ((u + (w - u) / (b - a) * (x - a)) - u) by lra.
  apply Rle_trans with (1 := Rabs_triang _ _). rewrite Rabs_Ropp. lra.
Qed.
Definition two100 : R := IZR (2 ^ 100).
Lemma two100_127 : forall x, x <= two100 * 1000000 -> x <= bpow radix2 127.
Proof. intros x H. apply Rle_trans with (1 := H). unfold two100. rewrite <- mult_IZR. rewrite <- (IZR_Zpower radix2 127) by lia. apply IZR_le. apply Z.leb_le. reflexivity. Qed.
Lemma two100_pos : 1000 < two100. Proof. unfold two100. apply IZR_lt. apply Z.ltb_lt. reflexivity. Qed.
Lemma tiny_small : tiny <= / 1000.
Proof.
  unfold tiny. apply Rle_trans with (bpow radix2 (-10)); [apply bpow_le; lia|]. change (bpow radix2 (-10)) with (/ 1024). lra.
Qed.
Lemma abs_le_2 : forall x y M, Rabs x <= M -> Rabs y <= M -> Rabs (x - y) <= 2 * M.
Proof. intros x y M A B. apply Rle_trans with (1 := Rabs_triang _ _). rewrite Rabs_Ropp. lra. Qed.

Lemma line_close : forall fa fb fu fw fx a b u w x M, fn fa a -> fn fb b -> fn fu u -> fn fw w -> fn fx x ->
  a < b -> a <= x <= b -> b - a <= two100 -> Rabs u <= M -> Rabs w <= M -> M <= two100 -> Rabs (w - u) <= two100 * (b - a) ->
  exists v, fn (gadd fu (gmul (gdiv (gsub fw fu) (gsub fb fa)) (gsub fx fa))) v /\
    Rabs (v - chord a b u w x) <= 12 * e24 * M + 2 * tiny * (1 + (b - a)).
Proof.
  intros fa fb fu fw fx a b u w x M Fa Fb Fu Fw Fx AB X BA HU HW HM SL.
  pose proof e24_pos as E0. pose proof two100_pos as T0. pose proof tiny_pos as N0. pose proof tiny_small as N1.
  assert (M0 : 0 <= M) by (apply Rle_trans with (2 := HU); apply Rabs_pos).
  assert (WU : Rabs (w - u) <= 2 * M) by (apply abs_le_2; assumption).
  destruct (sub_err fw fu w u Fw Fu) as (p & d1 & Fp & D1 & Ep); [apply two100_127; lra|].
  destruct (sub_err fb fa b a Fb Fa) as (q & d2 & Fq & D2 & Eq); [apply two100_127; rewrite Rabs_pos_eq by lra; lra|].
  destruct (sub_err fx fa x a Fx Fa) as (y & d4 & Fy & D4 & Ey); [apply two100_127; rewrite Rabs_pos_eq by lra; lra|].
  assert (D2' := Rabs_le_inv _ _ D2). assert (Q1 : 0 < 1 + d2) by (unfold e24 in D2'; lra).
  assert (Q0 : q <> 0) by (rewrite Eq; apply Rmult_integral_contrapositive_currified; lra).
  set (S0 := (w - u) / (b - a)).
  assert (HS : Rabs S0 <= two100).
  { unfold S0, Rdiv. rewrite Rabs_mult, Rabs_inv, (Rabs_pos_eq (b - a)) by lra. apply Rmult_le_reg_r with (b - a); [lra|]. rewrite Rmult_assoc, Rinv_l by lra. lra. }
  destruct (err_inv d2 D2) as (i2 & I2 & Ei2).
  destruct (err_mul 1 1.001 d1 i2) as (z2 & Z2 & Ez2); try lra.
  assert (Epq : p / q = S0 * (1 + z2)).
  { rewrite <- Ez2, <- Ei2, Ep, Eq. unfold S0. field. lra. }
  assert (Z2b : Rabs z2 <= 3 * e24) by lra.
  destruct (div_err _ _ p q Fp Fq Q0) as (s & d3 & t3 & Fs & D3 & T3 & Es).
  { rewrite Epq. apply two100_127. apply Rle_trans with (1 := near_bound 3 S0 z2 ltac:(lra) Z2b). lra. }
  destruct (err_mul (1 + 1.001 + / 1000) 1 z2 d3) as (z3 & Z3 & Ez3); try lra.
  assert (Es' : s = S0 * (1 + z3) + t3) by (rewrite Es, Epq, Rmult_assoc, Ez3; reflexivity).
  set (L := S0 * (x - a)).
  assert (HL : Rabs L <= 2 * M) by (apply part_bounds; assumption).
  destruct (err_mul (1 + 1.001 + / 1000 + 1 + / 1000) 1 z3 d4) as (z4 & Z4 & Ez4); try lra.
  set (TT := t3 * ((x - a) * (1 + d4))).
  assert (Esy : s * y = L * (1 + z4) + TT).
  { rewrite <- Ez4, Es', Ey. unfold TT, L. ring. }
  assert (XA : Rabs ((x - a) * (1 + d4)) <= 1.001 * (b - a)).
  { apply Rle_trans with (1 := near_bound 1 (x - a) d4 ltac:(lra) ltac:(lra)). rewrite Rabs_pos_eq by lra. lra. }
  assert (HT : Rabs TT <= tiny * (1.001 * (b - a))).
  { unfold TT. rewrite Rabs_mult. apply Rmult_le_compat; auto using Rabs_pos. }
  assert (HTb : tiny * (1.001 * (b - a)) <= two100).
  { apply Rle_trans with (/ 1000 * (1.001 * two100)); [|lra]. apply Rmult_le_compat; lra. }
  destruct (mul_err _ _ s y Fs Fy) as (m & d5 & t5 & Fm & D5 & T5 & Em).
  { rewrite Esy. apply two100_127. apply Rle_trans with (1 := Rabs_triang _ _).
    pose proof (near_bound 5 L z4 ltac:(lra) ltac:(lra)). lra. }
  destruct (err_mul (1 + 1.001 + / 1000 + 1 + / 1000 + 1 + / 1000) 1 z4 d5) as (z5 & Z5 & Ez5); try lra.
  assert (Em' : m - L = L * z5 + TT * (1 + d5) + t5).
  { rewrite Em, Esy. replace ((L * (1 + z4) + TT) * (1 + d5) + t5) with (L * ((1 + z4) * (1 + d5)) + TT * (1 + d5) + t5) by ring. rewrite Ez5. ring. }
  assert (HML : Rabs (m - L) <= 10.02 * e24 * M + 1.003 * tiny * (b - a) + tiny).
  { rewrite Em'. apply Rle_trans with (Rabs (L * z5) + Rabs (TT * (1 + d5)) + Rabs t5).
    - apply Rle_trans with (1 := Rabs_triang _ _). apply Rplus_le_compat_r. apply Rabs_triang.
    - assert (A1 : Rabs (L * z5) <= 10.02 * e24 * M).
      { rewrite Rabs_mult. apply Rle_trans with (2 * M * (5.01 * e24)); [|lra]. apply Rmult_le_compat; auto using Rabs_pos. lra. }
      assert (A2 : Rabs (TT * (1 + d5)) <= 1.003 * tiny * (b - a)).
      { apply Rle_trans with (1 := near_bound 1 TT d5 ltac:(lra) ltac:(lra)). apply Rle_trans with (1.001 * (tiny * (1.001 * (b - a)))); [lra|].
        assert (0 <= tiny * (b - a)) by (apply Rmult_le_pos; lra). lra. }
      lra. }
  assert (BND : 10.02 * e24 * M + 1.003 * tiny * (b - a) + tiny <= 5 * two100).
  { assert (e24 * M <= / 1000 * two100) by (apply Rmult_le_compat; unfold e24; lra). assert (tiny * (b - a) <= / 1000 * two100) by (apply Rmult_le_compat; lra). lra. }
  pose proof (chord_bounds a b u w x M AB X HU HW) as HC. unfold chord in *. fold S0 in HC |- *. fold L in HC |- *.
  assert (EU : u + m = (u + L) + (m - L)) by ring.
  destruct (add_err fu _ u m Fu Fm) as (v & d6 & Fv & D6 & Ev).
  { apply two100_127. rewrite EU. apply Rle_trans with (1 := Rabs_triang _ _). lra. }
  exists v. split; [exact Fv|]. rewrite Ev, EU.
  replace ((u + L + (m - L)) * (1 + d6) - (u + L)) with ((m - L) * (1 + d6) + (u + L) * d6) by ring.
  apply Rle_trans with (1 := Rabs_triang _ _).
  pose proof (near_bound 1 (m - L) d6 ltac:(lra) ltac:(lra)) as B1.
  assert (B2 : Rabs ((u + L) * d6) <= M * e24) by (rewrite Rabs_mult; apply Rmult_le_compat; auto using Rabs_pos).
  assert (0 <= e24 * M) by (apply Rmult_le_pos; lra). assert (0 <= tiny * (b - a)) by (apply Rmult_le_pos; lra). lra.
Qed.

(** ** v + (t - a) * (w - v) / (b - a) *)
Lemma blend_close : forall fa fb fu fw fx a b u w x M, fn fa a -> fn fb b -> fn fu u -> fn fw w -> fn fx x ->
  a < b -> a <= x <= b -> / two100 <= b - a <= two100 -> Rabs u <= M -> Rabs w <= M -> M <= two100 -> M * (b - a) <= two100 ->
  exists v, fn (gadd fu (gdiv (gmul (gsub fx fa) (gsub fw fu)) (gsub fb fa))) v /\
    Rabs (v - chord a b u w x) <= 12 * e24 * M + 2 * tiny * (1 + / (b - a)).
Proof.
  intros fa fb fu fw fx a b u w x M Fa Fb Fu Fw Fx AB X BA HU HW HM MB.
  pose proof e24_pos as E0. pose proof two100_pos as T0. pose proof tiny_pos as N0. pose proof tiny_small as N1.
  assert (M0 : 0 <= M) by (apply Rle_trans with (2 := HU); apply Rabs_pos).
  assert (WU : Rabs (w - u) <= 2 * M) by (apply abs_le_2; assumption).
  assert (IB : 0 < / (b - a) <= two100).
  { split; [apply Rinv_0_lt_compat; lra|]. rewrite <- (Rinv_inv two100). apply Rinv_le; [apply Rinv_0_lt_compat; lra|lra]. }
  destruct (sub_err fw fu w u Fw Fu) as (p & d2 & Fp & D2 & Ep); [apply two100_127; lra|].
  destruct (sub_err fb fa b a Fb Fa) as (q & d4 & Fq & D4 & Eq); [apply two100_127; rewrite Rabs_pos_eq by lra; lra|].
  destruct (sub_err fx fa x a Fx Fa) as (y & d1 & Fy & D1 & Ey); [apply two100_127; rewrite Rabs_pos_eq by lra; lra|].
  assert (D4' := Rabs_le_inv _ _ D4). assert (Q1 : 0 < 1 + d4) by (unfold e24 in D4'; lra).
  assert (Q0 : q <> 0) by (rewrite Eq; apply Rmult_integral_contrapositive_currified; lra).
  destruct (err_inv d4 D4) as (i4 & I4 & Ei4).
  destruct (err_mul 1 1 d1 d2) as (z2 & Z2 & Ez2); try lra.
  assert (Eyp : y * p = (x - a) * (w - u) * (1 + z2)) by (rewrite <- Ez2, Ey, Ep; ring).
  assert (XW : Rabs ((x - a) * (w - u)) <= 2 * two100).
  { rewrite Rabs_mult, (Rabs_pos_eq (x - a)) by lra. apply Rle_trans with ((b - a) * (2 * M)); [|lra]. apply Rmult_le_compat; try lra. apply Rabs_pos. }
  destruct (mul_err _ _ y p Fy Fp) as (m & d3 & t3 & Fm & D3 & T3 & Em).
  { rewrite Eyp. apply two100_127. apply Rle_trans with (1 := near_bound 3 _ z2 ltac:(lra) ltac:(lra)). lra. }
  destruct (err_mul (1 + 1 + / 1000) 1 z2 d3) as (z3 & Z3 & Ez3); try lra.
  assert (Em' : m = (x - a) * (w - u) * (1 + z3) + t3) by (rewrite Em, Eyp, Rmult_assoc, Ez3; reflexivity).
  set (L := (w - u) / (b - a) * (x - a)).
  assert (HL : Rabs L <= 2 * M) by (apply part_bounds; assumption).
  destruct (err_mul (1 + 1 + / 1000 + 1 + / 1000) 1.001 z3 i4) as (z4 & Z4 & Ez4); try lra.
  set (TT := t3 * (/ (b - a) * (1 + i4))).
  assert (Emq : m / q = L * (1 + z4) + TT).
  { rewrite <- Ez4, Em', Eq. unfold TT, L. rewrite <- Ei4. field. lra. }
  assert (HT : Rabs TT <= tiny * (1.001 * / (b - a))).
  { unfold TT. rewrite Rabs_mult. apply Rmult_le_compat; auto using Rabs_pos.
    apply Rle_trans with (1 := near_bound 2 _ i4 ltac:(lra) ltac:(lra)). rewrite Rabs_pos_eq by lra. lra. }
  assert (HTb : tiny * (1.001 * / (b - a)) <= two100).
  { apply Rle_trans with (/ 1000 * (1.001 * two100)); [|lra]. apply Rmult_le_compat; lra. }
  destruct (div_err _ _ m q Fm Fq Q0) as (r & d5 & t5 & Fr & D5 & T5 & Er).
  { rewrite Emq. apply two100_127. apply Rle_trans with (1 := Rabs_triang _ _).
    pose proof (near_bound 5 L z4 ltac:(lra) ltac:(lra)). lra. }
  destruct (err_mul (1 + 1 + / 1000 + 1 + / 1000 + 1.001 + / 1000) 1 z4 d5) as (z5 & Z5 & Ez5); try lra.
  assert (Er' : r - L = L * z5 + TT * (1 + d5) + t5).
  { rewrite Er, Emq. replace ((L * (1 + z4) + TT) * (1 + d5) + t5) with (L * ((1 + z4) * (1 + d5)) + TT * (1 + d5) + t5) by ring. rewrite Ez5. ring. }
  assert (HML : Rabs (r - L) <= 10.02 * e24 * M + 1.003 * tiny * / (b - a) + tiny).
  { rewrite Er'. apply Rle_trans with (Rabs (L * z5) + Rabs (TT * (1 + d5)) + Rabs t5).
    - apply Rle_trans with (1 := Rabs_triang _ _). apply Rplus_le_compat_r. apply Rabs_triang.
    - assert (A1 : Rabs (L * z5) <= 10.02 * e24 * M).
      { rewrite Rabs_mult. apply Rle_trans with (2 * M * (5.01 * e24)); [|lra]. apply Rmult_le_compat; auto using Rabs_pos. lra. }
      assert (A2 : Rabs (TT * (1 + d5)) <= 1.003 * tiny * / (b - a)).
      { apply Rle_trans with (1 := near_bound 1 TT d5 ltac:(lra) ltac:(lra)). apply Rle_trans with (1.001 * (tiny * (1.001 * / (b - a)))); [lra|].
        assert (0 <= tiny * / (b - a)) by (apply Rmult_le_pos; lra). lra. }
      lra. }
  assert (BND : 10.02 * e24 * M + 1.003 * tiny * / (b - a) + tiny <= 5 * two100).
  { assert (e24 * M <= / 1000 * two100) by (apply Rmult_le_compat; unfold e24; lra). assert (tiny * / (b - a) <= / 1000 * two100) by (apply Rmult_le_compat; lra). lra. }
  pose proof (chord_bounds a b u w x M AB X HU HW) as HC. unfold chord in *. fold L in HC |- *.
  assert (EU : u + r = (u + L) + (r - L)) by ring.
  destruct (add_err fu _ u r Fu Fr) as (v & d6 & Fv & D6 & Ev).
  { apply two100_127. rewrite EU. apply Rle_trans with (1 := Rabs_triang _ _). lra. }
  exists v. split; [exact Fv|]. rewrite Ev, EU.
  replace ((u + L + (r - L)) * (1 + d6) - (u + L)) with ((r - L) * (1 + d6) + (u + L) * d6) by ring.
  apply Rle_trans with (1 := Rabs_triang _ _).
  pose proof (near_bound 1 (r - L) d6 ltac:(lra) ltac:(lra)) as B1.
  assert (B2 : Rabs ((u + L) * d6) <= M * e24) by (rewrite Rabs_mult; apply Rmult_le_compat; auto using Rabs_pos).
  assert (0 <= e24 * M) by (apply Rmult_le_pos; lra). assert (0 <= tiny * / (b - a)) by (apply Rmult_le_pos; lra). lra.
Qed.

(** the chord through values that are off by at most E is off by at most E *)
Lemma chord_shift : forall a b u w u' w' x E, a < b -> a <= x <= b -> Rabs (u' - u) <= E -> Rabs (w' - w) <= E -> Rabs (chord a b u' w' x - chord a b u w x) <= E.
Proof.
  intros a b u w u' w' x E H X HU HW.
  replace (chord a b u' w' x - chord a b u w x) with (chord a b (u' - u) (w' - w) x) by (unfold chord; field; lra). apply chord_bounds; assumption.
Qed.

(** ** the two shares of a value: lw * value and rw * value with
    rw = (loc - a) / (b - a), lw = 1 - rw *)
Lemma one_fn : fn (gof_Z 1) 1.
Proof.
  pose proof (fin_of_Z 24 128 1) as H. rewrite (rnd_int 24 128 1) in H by (apply Z.leb_le; reflexivity). apply H. rewrite Rabs_R1.
  apply Rle_trans with (bpow radix2 0); [right; reflexivity|]. apply bpow_le. lia.
Qed.
Lemma shares_close : forall fa fb fx fv a b x v, fn fa a -> fn fb b -> fn fx x -> fn fv v -> a < b -> a <= x <= b -> b - a <= two100 -> Rabs v <= two100 ->
  let rw := gdiv (gsub fx fa) (gsub fb fa) in
  exists l r, fn (gmul (gsub (gof_Z 1) rw) fv) l /\ fn (gmul rw fv) r /\
    Rabs (r - v * ((x - a) / (b - a))) <= 5 * e24 * Rabs v + 2 * tiny * (1 + Rabs v) /\
    Rabs (l - v * ((b - x) / (b - a))) <= 7 * e24 * Rabs v + 2 * tiny * (1 + Rabs v) /\
    Rabs (l + r - v) <= 4 * e24 * Rabs v + 2 * tiny.
Proof.
  intros fa fb fx fv a b x v Fa Fb Fx Fv AB X BA HV rw.
  pose proof e24_pos as E0. pose proof two100_pos as T0. pose proof tiny_pos as N0. pose proof tiny_small as N1.
  destruct (sub_err fb fa b a Fb Fa) as (q & d2 & Fq & D2 & Eq); [apply two100_127; rewrite Rabs_pos_eq by lra; lra|].
  destruct (sub_err fx fa x a Fx Fa) as (p & d1 & Fp & D1 & Ep); [apply two100_127; rewrite Rabs_pos_eq by lra; lra|].
  assert (D2' := Rabs_le_inv _ _ D2). assert (Q1 : 0 < 1 + d2) by (unfold e24 in D2'; lra).
  assert (D1' := Rabs_le_inv _ _ D1). assert (P1 : 0 < 1 + d1) by (unfold e24 in D1'; lra).
  assert (QP : 0 < q) by (rewrite Eq; apply Rmult_lt_0_compat; lra). assert (Q0 : q <> 0) by lra.
  assert (PP : 0 <= p) by (rewrite Ep; apply Rmult_le_pos; lra).
  assert (PQ : p <= q).
  { assert (Hq : q = rnd 24 128 (b - a)).
    { apply (fin_fun 24 128 _ _ _ Fq). apply fin_sub; auto. rewrite hug. apply two100_127. rewrite Rabs_pos_eq by lra. lra. }
    assert (Hp : p = rnd 24 128 (x - a)).
    { apply (fin_fun 24 128 _ _ _ Fp). apply fin_sub; auto. rewrite hug. apply two100_127. rewrite Rabs_pos_eq by lra. lra. }
    rewrite Hp, Hq. apply rnd_le; [exact p24|]. lra. }
  set (lam := (x - a) / (b - a)).
  assert (HLam : 0 <= lam <= 1).
  { unfold lam. split; [apply Rmult_le_pos; [lra|left; apply Rinv_0_lt_compat; lra]|]. apply Rmult_le_reg_r with (b - a); [lra|]. unfold Rdiv. rewrite Rmult_assoc, Rinv_l by lra. lra. }
  assert (HPQ : 0 <= p / q <= 1).
  { split; [apply Rmult_le_pos; [lra|left; apply Rinv_0_lt_compat; lra]|]. apply Rmult_le_reg_r with q; [lra|]. unfold Rdiv. rewrite Rmult_assoc, Rinv_l by lra. lra. }
  destruct (err_inv d2 D2) as (i2 & I2 & Ei2).
  destruct (err_mul 1 1.001 d1 i2) as (z2 & Z2 & Ez2); try lra.
  assert (Epq : p / q = lam * (1 + z2)) by (rewrite <- Ez2, <- Ei2, Ep, Eq; unfold lam; field; lra).
  assert (B1 : Rabs (p / q) <= bpow radix2 127) by (apply two100_127; rewrite Rabs_pos_eq by lra; lra).
  destruct (div_err _ _ p q Fp Fq Q0 B1) as (w & d3 & t3 & Fw & D3 & T3 & Ew).
  assert (HW : 0 <= w <= 1).
  { assert (Hw : w = rnd 24 128 (p / q)) by (apply (fin_fun 24 128 _ _ _ Fw); apply fin_div; auto).
    rewrite Hw. split; [apply rnd_nonneg; [exact p24|lra]|]. replace 1 with (rnd 24 128 1) by (apply (rnd_int 24 128 1); apply Z.leb_le; reflexivity). apply rnd_le; [exact p24|lra]. }
  fold rw in Fw.
  destruct (err_mul (1 + 1.001 + / 1000) 1 z2 d3) as (z3 & Z3 & Ez3); try lra.
  assert (Ew' : w = lam * (1 + z3) + t3) by (rewrite Ew, Epq, Rmult_assoc, Ez3; reflexivity).
  destruct (sub_err (gof_Z 1) rw 1 w one_fn Fw) as (lw & d4 & Flw & D4 & Elw); [apply two100_127; rewrite Rabs_pos_eq by lra; lra|].
  assert (D4' := Rabs_le_inv _ _ D4).
  assert (HLW : 0 <= lw <= 1.001) by (rewrite Elw; split; [apply Rmult_le_pos; unfold e24 in D4'; lra|apply Rle_trans with (1 * (1 + e24)); [apply Rmult_le_compat; unfold e24 in *; lra|unfold e24; lra]]).
  destruct (mul_err _ _ lw v Flw Fv) as (l & d5 & t5 & Fl & D5 & T5 & El).
  { apply two100_127. rewrite Rabs_mult, (Rabs_pos_eq lw) by lra. apply Rle_trans with (1.001 * two100); [apply Rmult_le_compat; try lra; apply Rabs_pos|lra]. }
  destruct (mul_err _ _ w v Fw Fv) as (r & d6 & t6 & Fr & D6 & T6 & Er).
  { apply two100_127. rewrite Rabs_mult, (Rabs_pos_eq w) by lra. apply Rle_trans with (1 * two100); [apply Rmult_le_compat; try lra; apply Rabs_pos|lra]. }
  exists l, r. split; [exact Fl|]. split; [exact Fr|].
  pose proof (Rabs_pos v) as V0.
  assert (WL : Rabs (w - lam) <= 3.01 * e24 + tiny).
  { replace (w - lam) with (lam * z3 + t3) by (rewrite Ew'; ring). apply Rle_trans with (1 := Rabs_triang _ _). apply Rplus_le_compat; [|exact T3].
    rewrite Rabs_mult, (Rabs_pos_eq lam) by lra. apply Rle_trans with (1 * (3.01 * e24)); [apply Rmult_le_compat; try lra; apply Rabs_pos|lra]. }
  assert (RW : Rabs (r - v * w) <= e24 * Rabs v + tiny).
  { replace (r - v * w) with (v * w * d6 + t6) by (rewrite Er; ring). apply Rle_trans with (1 := Rabs_triang _ _). apply Rplus_le_compat; [|exact T6].
    rewrite !Rabs_mult, (Rabs_pos_eq w) by lra. apply Rle_trans with (Rabs v * 1 * e24); [|lra].
    apply Rmult_le_compat; [apply Rmult_le_pos; lra|apply Rabs_pos|apply Rmult_le_compat_l; lra|exact D6]. }
  destruct (err_mul 1 1 d4 d5) as (z5 & Z5 & Ez5); try lra.
  assert (LW : Rabs (l - v * (1 - w)) <= 2.01 * e24 * Rabs v + tiny).
  { replace (l - v * (1 - w)) with (v * (1 - w) * z5 + t5).
    2:{ rewrite El, Elw. replace ((1 - w) * (1 + d4) * v * (1 + d5)) with ((1 - w) * v * ((1 + d4) * (1 + d5))) by ring. rewrite Ez5. ring. }
    apply Rle_trans with (1 := Rabs_triang _ _). apply Rplus_le_compat; [|exact T5].
    rewrite !Rabs_mult, (Rabs_pos_eq (1 - w)) by lra. apply Rle_trans with (Rabs v * 1 * (2.01 * e24)); [|lra].
    apply Rmult_le_compat; [apply Rmult_le_pos; lra|apply Rabs_pos|apply Rmult_le_compat_l; lra|lra]. }
  assert (VW : Rabs (v * (w - lam)) <= 3.01 * e24 * Rabs v + tiny * Rabs v).
  { rewrite Rabs_mult. apply Rle_trans with (Rabs v * (3.01 * e24 + tiny)); [apply Rmult_le_compat_l; lra|lra]. }
  assert (0 <= e24 * Rabs v) by (apply Rmult_le_pos; lra). assert (0 <= tiny * Rabs v) by (apply Rmult_le_pos; lra).
  split; [|split].
  - replace (r - v * lam) with ((r - v * w) + v * (w - lam)) by ring. apply Rle_trans with (1 := Rabs_triang _ _). lra.
  - replace ((b - x) / (b - a)) with (1 - lam) by (unfold lam; field; lra).
    replace (l - v * (1 - lam)) with ((l - v * (1 - w)) + - (v * (w - lam))) by ring. apply Rle_trans with (1 := Rabs_triang _ _). rewrite Rabs_Ropp. lra.
  - replace (l + r - v) with ((l - v * (1 - w)) + (r - v * w)) by ring. apply Rle_trans with (1 := Rabs_triang _ _). lra.
Qed.
