(** QKtbfProps.v -- C152: the Korean treasury bond future; and numbers that meet
    the hypotheses of C150 and C151. *)
From Coq Require Import ZArith List Permutation Reals Lra Lia Bool.
From Flocq Require Import Core IEEE754.BinarySingleNaN.
From Verif Require Import Base CivilSpec FloatModel FloatFacts KrxModel QDateModel QCalModel QPeriodModel QPeriodSpec QYearModel QSchedModel QInterpModel QInterpSpec QCurveModel QCurveSpec QCurveFacts QFloatErr QLinProps QRollProofs QCurveExp QCurveProps QCurveFwdProps QBondModel QBondSpec QBondProofs QBondPriceProps QCouponProps QYieldProofs QYieldProps.
Import ListNotations.
Open Scope R_scope.

(** ** C152 *)
(** a future is made exactly if every bond of its basket is priced at the
    future's maturity, and it keeps what it is given *)
Theorem c152_new : forall notional maturity settlement v bonds,
  let fits := Forall (fun b => exists d, bd_pricing b = Some d /\ instant d = instant maturity) bonds in
  (fits -> exists k, ktbf_new notional maturity settlement v bonds = ROk k /\ kb_notional k = notional /\ kb_maturity k = maturity /\ kb_settlement k = settlement /\ kb_virtual k = v /\ kb_bonds k = bonds) /\
  (~ fits -> ktbf_new notional maturity settlement v bonds = RErr).
Proof.
  intros notional maturity settlement v bonds fits. assert (S : bonds_fit bonds maturity = true <-> fits).
  { unfold fits. clear. induction bonds as [|b l IH]; [split; [constructor|reflexivity]|]. cbn [bonds_fit]. destruct (bd_pricing b) as [d|] eqn:E.
    - destruct (Z.eqb_spec (instant d) (instant maturity)) as [Q|Q].
      + rewrite IH. split; [intro H; constructor; eauto|intro H; inversion H; assumption].
      + split; [discriminate|]. intro H. inversion H as [|? ? (d' & E' & Q') _]; subst. congruence.
    - split; [discriminate|]. intro H. inversion H as [|? ? (d' & E' & Q') _]; subst. congruence. }
  unfold ktbf_new. split; intro H.
  - rewrite (proj2 S H). eexists. split; [reflexivity|]. auto.
  - destruct (bonds_fit bonds maturity); [exfalso; apply H, S; reflexivity|reflexivity].
Qed.
(** an empty basket is accepted, and cannot be priced *)
Theorem c152_no_bonds_refuted : forall f_ln f_powi m find order eval disc borrow notional maturity settlement v,
  exists k, ktbf_new notional maturity settlement v [] = ROk k /\ ktbf_npv f_ln f_powi m find order eval disc borrow k = Panic.
Proof. intros. eexists. split; reflexivity. Qed.

Lemma total_err : forall l (s : f32) v A B k, fn s v -> Rabs A <= B -> Rabs (v - A) <= 2 * INR k * e24 * B -> Forall (fun y => finite y /\ Rabs (value y) <= 2 ^ 10) l -> B <= INR k * 2 ^ 10 -> (Z.of_nat (k + length l) <= 1048576)%Z ->
  exists v' B', fn (fold_left gadd l s) v' /\ Rabs (v' - (A + total l)) <= 2 * INR (k + length l) * e24 * B' /\ B' <= INR (k + length l) * 2 ^ 10 /\
   (forall M, Forall (fun y => Rabs (value y) <= M) l -> B' <= B + INR (length l) * M).
Proof.
  induction l as [|y l IH]; intros s v A B k Fs HA V G HB K.
  - exists v, B. cbn [fold_left total fold_right length]. rewrite Nat.add_0_r, Rplus_0_r. split; [exact Fs|]. split; [exact V|]. split; [exact HB|]. intros M _. cbn. lra.
  - inversion G as [|? ? [Fy Hy] G2]; subst. cbn [length] in K. assert (P10 : 2 ^ 10 = 1024) by (rewrite pow_IZR; reflexivity). rewrite P10 in *.
    assert (KR : 0 <= INR k <= 1048576). { split; [apply pos_INR|]. rewrite INR_IZR_INZ. apply IZR_le. lia. }
    assert (SK : INR (S k) = INR k + 1) by apply S_INR.
    destruct (acc_step s y v (value y) A B (value y) (INR k) 0 0 Fs (conj Fy eq_refl)) as (v1 & F1 & V1 & A1); [rewrite Rminus_diag_eq, Rabs_R0 by reflexivity; lra|unfold e24 in *; lra|exact HA|exact KR|lra|lra| |].
    { assert (P99 : 2 ^ 99 = 633825300114114700748351602688) by (rewrite pow_IZR; reflexivity). rewrite P99. lra. }
    destruct (IH (gadd s y) v1 (A + value y) (B + Rabs (value y)) (S k) F1 A1) as (v' & B' & F' & V' & HB' & HM); [rewrite SK; lra|exact G2|rewrite SK; lra|lia|].
    exists v', B'. cbn [fold_left total fold_right length]. fold (total l). rewrite <- plus_n_Sm. cbn [Nat.add] in *. rewrite <- Rplus_assoc. split; [exact F'|]. split; [exact V'|]. split; [exact HB'|].
    intros M FM. inversion FM as [|? ? M1 M2]; subst. specialize (HM M M2). rewrite S_INR. lra.
Qed.
Lemma total_bound : forall M l, Forall (fun y => Rabs (value y) <= M) l -> Rabs (total l) <= INR (length l) * M.
Proof.
  intros M. induction l as [|y l IH]; intro H; [cbn; rewrite Rabs_R0; lra|]. inversion H; subst. cbn [total fold_right length]. fold (total l). rewrite S_INR. apply Rle_trans with (1 := Rabs_triang _ _). specialize (IH ltac:(assumption)). lra.
Qed.
Lemma pairs_length : forall {A B} (R : A -> B -> Prop) l m, Forall2 R l m -> length l = length m.
Proof. intros A B R l m H. induction H as [|x y l m _ _ IH]; [reflexivity|]. cbn. rewrite IH. reflexivity. Qed.
Lemma pairs_impl : forall {A B} (R T : A -> B -> Prop) l m, (forall x y, R x y -> T x y) -> Forall2 R l m -> Forall2 T l m.
Proof. intros A B R T l m I H. induction H; constructor; auto. Qed.
Lemma ratio_pow : forall a b n, (a / b) ^ n = a ^ n * / b ^ n.
Proof. intros a b n. unfold Rdiv. rewrite Rpow_mult_distr, Rfunctions.pow_inv. reflexivity. Qed.
Lemma map_res_all : forall {A B} (f : A -> outcome (rresult B)) l ys, Forall2 (fun x y => f x = Ret (ROk y)) l ys -> map_res f l = Ret (ROk ys).
Proof. intros A B f l ys H. induction H as [|x y l ys E _ IH]; [reflexivity|]. cbn [map_res]. rewrite E. cbn [rbind]. rewrite IH. reflexivity. Qed.
(** the price is that of the virtual bond at the average of the yields of the
    basket, discounted on the borrowing curve *)
Theorem c152_price : forall f_ln f_powi m find order eval disc borrow k b0 bonds guess ys D n, good_powi f_powi -> let v := kb_virtual k in
  (Z.of_nat n = vb_year v * freq_number (vb_freq v))%Z -> (1 <= n)%nat -> (n <= 64)%nat ->
  let f := IZR (freq_number (vb_freq v)) in let c := value (vb_coupon v) / f in finite (vb_coupon v) -> c = 0 \/ / 2 ^ 40 <= c <= 1 -> finite (vb_notional v) -> 1 <= value (vb_notional v) <= 2 ^ 40 ->
  kb_bonds k = b0 :: bonds -> forward_from f_ln eval disc (bd_maturity b0) CSimple = Ret (ROk guess) ->
  Forall2 (fun b y => exists x, bond_npv f_ln order eval disc None None b = Ret (ROk x) /\ find b x guess = Ret (ROk y)) (b0 :: bonds) ys ->
  Forall (fun y => finite y /\ Rabs (value y) <= f / 5) ys -> (Z.of_nat (length ys) <= 65536)%Z ->
  discount_at eval borrow (kb_maturity k) = Ret (ROk D) -> finite D -> / 2 ^ 20 <= value D <= 2 ^ 20 ->
  exists average x, finite average /\ Rabs (value average - mean ys) <= f * (INR (length ys) + 1) / 2 ^ 24 /\
    let price := value (vb_notional v) * annuity_bond c (1 + value average / f) n in
    ktbf_npv f_ln f_powi m find order eval disc borrow k = Ret (ROk x) /\ finite x /\ Rabs (value x - price * value D) <= price * value D * ((15 * INR n + 8) / 2 ^ 24).
Proof.
  intros f_ln f_powi m find order eval disc borrow k b0 bonds guess ys D n GP v E N1 N f c Fc HC FN BN KB G YS GY LY ED FD BD.
  assert (NF : vb_freq v <> NoFrequency) by (intro Q; rewrite Q in E; cbn in E; lia). destruct (freq_pos _ NF) as [FF BF]. assert (F1 : 1 <= f <= 252) by (split; apply IZR_le; lia).
  assert (Y10 : Forall (fun y => finite y /\ Rabs (value y) <= 2 ^ 10) ys). { assert (P10 : 2 ^ 10 = 1024) by (rewrite pow_IZR; reflexivity). rewrite P10. revert GY. apply Forall_impl. intros y [Fy Hy]. split; [exact Fy|lra]. }
  assert (YM : Forall (fun y => Rabs (value y) <= f / 5) ys) by (revert GY; apply Forall_impl; tauto).
  destruct (total_err ys (gof_Z 0) 0 0 0 0 zero_fn) as (t & B' & Ft & Vt & _ & HM); try (rewrite ?Rminus_diag_eq, ?Rabs_R0 by reflexivity; cbn; lra); [exact Y10|lia|]. specialize (HM _ YM). cbn [Nat.add] in Vt. rewrite Rplus_0_l in Vt.
  pose proof (total_bound _ _ YM) as TB.
  assert (LN : length ys = length (b0 :: bonds)) by (symmetry; apply (pairs_length _ _ _ YS)). assert (L1 : (1 <= length ys)%nat) by (rewrite LN; cbn; lia).
  set (L := INR (length ys)) in *. assert (LR : 1 <= L <= 65536). { unfold L. rewrite INR_IZR_INZ. split; apply IZR_le; lia. }
  assert (FL : fn (gof_Z (Z.of_nat (length ys))) L). { unfold L. rewrite INR_IZR_INZ. apply small_fin. lia. }
  assert (B0 : 0 <= L * (f / 5)) by (apply Rmult_le_pos; lra).
  assert (VT : Rabs (t - total ys) <= 2 * L * e24 * (L * (f / 5))). { apply Rle_trans with (1 := Vt). apply Rmult_le_compat_l; [unfold e24; lra|]. lra. }
  assert (TL : Rabs (t / L) <= 253).
  { unfold Rdiv. rewrite Rabs_mult, (Rabs_pos_eq (/ L)) by (left; apply Rinv_0_lt_compat; lra). apply Rmult_le_reg_r with L; [lra|]. rewrite Rmult_assoc, Rinv_l, Rmult_1_r by lra.
    assert (LL : L * (f / 5) <= L * (252 / 5)) by (apply Rmult_le_compat_l; lra). assert (H2 : 2 * L * e24 * (L * (f / 5)) <= L * (2 * 65536 * e24 * (252 / 5))).
    { replace (2 * L * e24 * (L * (f / 5))) with (L * (2 * L * e24 * (f / 5))) by ring. apply Rmult_le_compat_l; [lra|]. unfold e24. apply Rmult_le_compat; lra. }
    replace t with ((t - total ys) + total ys) by ring. apply Rle_trans with (1 := Rabs_triang _ _). unfold e24 in *. lra. }
  destruct (div_err _ _ t L Ft FL ltac:(lra)) as (a & d & tt & Fa & Hd & Ht & Ea). { apply two100_127. unfold two100. lra. }
  set (average := gdiv (fold_left gadd ys (gof_Z 0)) (gof_Z (Z.of_nat (length ys)))) in *. destruct Fa as [Fa Va]. fold (value average) in Va.
  assert (MB : Rabs (mean ys) <= f / 5).
  { unfold mean. fold L. unfold Rdiv at 1. rewrite Rabs_mult, (Rabs_pos_eq (/ L)) by (left; apply Rinv_0_lt_compat; lra). apply Rmult_le_reg_r with L; [lra|]. rewrite Rmult_assoc, Rinv_l, Rmult_1_r by lra. lra. }
  assert (MA : Rabs (t / L - mean ys) <= 2 * L * e24 * (f / 5)).
  { unfold mean. fold L. replace (t / L - total ys / L) with ((t - total ys) * / L) by (unfold Rdiv; ring). rewrite Rabs_mult, (Rabs_pos_eq (/ L)) by (left; apply Rinv_0_lt_compat; lra). apply Rmult_le_reg_r with L; [lra|]. rewrite Rmult_assoc, Rinv_l, Rmult_1_r by lra. lra. }
  assert (AV : Rabs (value average - mean ys) <= f * (L + 1) / 2 ^ 24).
  { rewrite p24'. rewrite Va, Ea. set (q := t / L) in *. clearbody q. replace (q * (1 + d) + tt - mean ys) with ((q - mean ys) + (q * d + tt)) by ring. apply Rle_trans with (1 := Rabs_triang _ _). apply Rle_trans with (2 * L * e24 * (f / 5) + (Rabs q * e24 + tiny)).
    - apply Rplus_le_compat; [exact MA|]. apply Rle_trans with (1 := Rabs_triang _ _). apply Rplus_le_compat; [|exact Ht]. rewrite Rabs_mult. apply Rmult_le_compat_l; [apply Rabs_pos|exact Hd].
    - assert (QB : Rabs q <= f / 5 * 1.2). { replace q with ((q - mean ys) + mean ys) by ring. apply Rle_trans with (1 := Rabs_triang _ _). assert (2 * L * e24 * (f / 5) <= 0.1 * (f / 5)) by (apply Rmult_le_compat_r; unfold e24; lra). lra. }
      assert (TS : tiny <= e24 * / 100) by (pose proof QBondProofs.tiny_small; unfold e24 in *; lra). assert (FL5 : 0 <= f * L) by (apply Rmult_le_pos; lra). replace (2 * L * e24 * (f / 5)) with (f * L * e24 * (2 / 5)) by field. unfold e24 in *. lra. }
  assert (AF : Rabs (value average / f) <= / 4).
  { unfold Rdiv. rewrite Rabs_mult, (Rabs_pos_eq (/ f)) by (left; apply Rinv_0_lt_compat; lra). apply Rmult_le_reg_r with f; [lra|]. rewrite Rmult_assoc, Rinv_l, Rmult_1_r by lra.
    replace (value average) with ((value average - mean ys) + mean ys) by ring. apply Rle_trans with (1 := Rabs_triang _ _). rewrite p24' in AV. assert (f * (L + 1) <= f * 65537) by (apply Rmult_le_compat_l; lra). lra. }
  set (b := 1 + value average / f). assert (Hb : 3 / 4 <= b <= 5 / 4) by (apply Rabs_le_inv in AF; unfold b; lra).
  assert (RB : / 2 ^ 40 <= b ^ n <= 2 ^ 40).
  { assert (R64 : / 2 ^ 40 <= b ^ 64 <= 2 ^ 40).
    { split.
      - apply Rle_trans with ((3 / 4) ^ 64); [|apply pow_incr; lra]. rewrite ratio_pow. rewrite p40. assert (X : 3 ^ 64 = 3433683820292512484657849089281) by (rewrite pow_IZR; reflexivity). assert (Y : 4 ^ 64 = 340282366920938463463374607431768211456) by (rewrite pow_IZR; reflexivity). rewrite X, Y. lra.
      - apply Rle_trans with ((5 / 4) ^ 64); [apply pow_incr; lra|]. rewrite ratio_pow. rewrite p40. assert (X : 5 ^ 64 = 542101086242752217003726400434970855712890625) by (rewrite pow_IZR; reflexivity). assert (Y : 4 ^ 64 = 340282366920938463463374607431768211456) by (rewrite pow_IZR; reflexivity). rewrite X, Y. lra. }
    apply (pow_between b n 64); try lra; try lia. }
  destruct (c150_price f_powi GP m v average n E N1 ltac:(lia) Fa) as (x & X & Fx & Q); fold f c b; auto; [lra|]. fold f c b in Q.
  set (price := value (vb_notional v) * annuity_bond c b n) in *. 
  assert (C01 : 0 <= c <= 1) by (rewrite p40 in HC; lra). destruct (annuity_range c b n ltac:(lra) C01 RB) as [A0 A1].
  assert (IN : 1 <= INR n <= 64). { rewrite INR_IZR_INZ. split; apply IZR_le; lia. }
  assert (PR : / 1099511627776 <= price <= 66 * 1099511627776 * 1099511627776).
  { rewrite p40 in *. assert (I : / 1099511627776 <= / b ^ n <= 1099511627776). { split; [apply Rinv_le; lra|]. replace 1099511627776 with (/ / 1099511627776) by field. apply Rinv_le; lra. }
    unfold price, annuity_bond. split; [apply Rle_trans with (1 * / 1099511627776); [lra|apply Rmult_le_compat; lra]|]. apply Rle_trans with (1099511627776 * (66 * 1099511627776)); [apply Rmult_le_compat; lra|lra]. }
  rewrite p24' in Q. assert (Q' : Rabs (value x - price) <= price * / 10000). { apply Rle_trans with (1 := Q). apply Rmult_le_compat_l; lra. }
  rewrite p20 in BD. set (S := price * value D).
  assert (SB : / 1099511627776 * / 1048576 <= S <= 66 * 1099511627776 * 1099511627776 * 1048576) by (split; apply Rmult_le_compat; lra).
  destruct (mul_err x D (value x) (value D) (conj Fx eq_refl) (conj FD eq_refl)) as (w & dd & td & Fw & Hdd & Htd & Ew).
  { apply two100_127. unfold two100. rewrite Rabs_mult. rewrite (Rabs_pos_eq (value D)) by lra. assert (Rabs (value x) <= 2 * price). { replace (value x) with ((value x - price) + price) by ring. apply Rle_trans with (1 := Rabs_triang _ _). rewrite (Rabs_pos_eq price) by lra. lra. }
    apply Rle_trans with (2 * price * value D); [apply Rmult_le_compat_r; lra|]. replace (2 * price * value D) with (2 * S) by (unfold S; ring). lra. }
  exists average, (gmul x D). split; [exact Fa|]. split; [exact AV|]. cbv zeta. fold b. fold price. fold S. split; [|destruct Fw as [F2 V2]; split; [exact F2|]].
  - unfold ktbf_npv. rewrite KB, G. cbn [rbind]. rewrite (map_res_all _ _ ys). 2: { revert YS. apply pairs_impl. intros b' y (x' & X1 & X2). rewrite X1. cbn [rbind]. exact X2. }
    cbn [rbind]. fold average. fold v. rewrite X. cbn [obind]. rewrite ED. reflexivity.
  - fold (value (gmul x D)) in V2. rewrite V2, Ew, p24'. replace (value x * value D * (1 + dd) + td - S) with ((value x - price) * value D * (1 + dd) + (S * dd + td)) by (unfold S; ring).
    apply Rle_trans with (1 := Rabs_triang _ _). assert (D1 : Rabs (1 + dd) <= 1.001) by (apply Rabs_le_inv in Hdd; unfold e24 in Hdd; apply Rabs_le; lra).
    assert (T1 : Rabs ((value x - price) * value D * (1 + dd)) <= S * ((15 * INR n + 6) / 16777216) * 1.001).
    { rewrite Rabs_mult. apply Rmult_le_compat; try apply Rabs_pos; [|exact D1]. rewrite Rabs_mult, (Rabs_pos_eq (value D)) by lra. unfold S. replace (price * value D * ((15 * INR n + 6) / 16777216)) with (price * ((15 * INR n + 6) / 16777216) * value D) by ring. apply Rmult_le_compat_r; [lra|exact Q]. }
    assert (T2 : Rabs (S * dd + td) <= S * e24 + S * (e24 * / 100)).
    { apply Rle_trans with (1 := Rabs_triang _ _). apply Rplus_le_compat; [rewrite Rabs_mult, (Rabs_pos_eq S) by lra; apply Rmult_le_compat_l; lra|]. apply Rle_trans with (1 := Htd).
      assert (tiny <= / 1099511627776 * / 1048576 * (e24 * / 100)). { unfold tiny. change (-150)%Z with (Z.opp 150). rewrite bpow_opp. change (bpow radix2 150) with (IZR (Z.pow_pos 2 150)). unfold e24. rewrite <- !Rinv_mult. apply Rinv_le; [lra|]. rewrite <- !mult_IZR. apply IZR_le. apply Z.leb_le. reflexivity. }
      apply Rle_trans with (1 := H). apply Rmult_le_compat_r; [unfold e24; lra|lra]. }
    apply Rle_trans with (1 := Rplus_le_compat _ _ _ _ T1 T2). assert (S * (INR n * 15 * 0.001 + 6 * 0.001) <= S * 0.97) by (apply Rmult_le_compat_l; lra).
    replace (S * ((15 * INR n + 6) / 16777216) * 1.001) with ((S * (15 * INR n + 6) + S * (INR n * 15 * 0.001 + 6 * 0.001)) / 16777216) by lra. replace (S * ((15 * INR n + 8) / 16777216)) with ((S * (15 * INR n + 6) + 2 * S) / 16777216) by lra. unfold e24. lra.
Qed.

(** ** The hypotheses are met *)
Definition an_powi (x : f32) (i : Z) : f32 := if (i =? 0)%Z then gof_Z 1 else if (i =? 1)%Z then x else to_f32 (value x ^ Z.to_nat i).
Definition an_powf (x e : f32) : f32 := to_f32 (Rpower (value x) (value e)).
Lemma to_f32_wide : forall z, / 2 ^ 41 <= z <= 2 ^ 41 -> finite (to_f32 z) /\ Rabs (value (to_f32 z) - z) <= z * (4 / 2 ^ 24).
Proof.
  intros z H. rewrite p41 in H. assert (Z0 : 0 <= z) by lra. destruct (to_f32_close z) as [F Q].
  { rewrite Rabs_pos_eq by exact Z0. split.
    - apply Rle_trans with (2 := proj1 H). change (-100)%Z with (Z.opp 100). rewrite bpow_opp. change (bpow radix2 100) with (IZR (Z.pow_pos 2 100)). apply Rinv_le; [lra|]. apply IZR_le. apply Z.leb_le. reflexivity.
    - apply Rle_trans with (1 := proj2 H). rewrite <- (IZR_Zpower radix2 126) by lia. apply IZR_le. apply Z.leb_le. reflexivity. }
  split; [exact F|]. rewrite (Rabs_pos_eq z Z0) in Q. apply Rle_trans with (1 := Q). rewrite p24'. assert (P22 : 2 ^ 22 = 4194304) by (rewrite pow_IZR; reflexivity). rewrite P22. lra.
Qed.
Lemma an_powi_good : good_powi an_powi.
Proof.
  intros x i F _ R _. unfold an_powi. destruct i as [|[|i]].
  - cbn [Z.of_nat Z.eqb pow INR]. destruct one_fn as [F1 V1]. split; [exact F1|]. unfold value. rewrite V1, Rminus_diag_eq, Rabs_R0 by reflexivity. lra.
  - change (Z.of_nat 1 =? 0)%Z with false. change (Z.of_nat 1 =? 1)%Z with true. cbv iota. split; [exact F|]. rewrite pow_1, Rminus_diag_eq, Rabs_R0 by reflexivity. rewrite pow_1 in R. rewrite p41 in R. rewrite p24'. cbn [INR]. lra.
  - rewrite (proj2 (Z.eqb_neq _ 0)), (proj2 (Z.eqb_neq _ 1)) by lia. rewrite Nat2Z.id. destruct (to_f32_wide _ R) as [G Q]. split; [exact G|]. apply Rle_trans with (1 := Q). rewrite p41 in R. apply Rmult_le_compat_l; [lra|]. rewrite p24'. assert (2 <= INR (S (S i))) by (rewrite !S_INR; pose proof (pos_INR i); lra). lra.
Qed.
Lemma to_f32_one : finite (to_f32 1) /\ value (to_f32 1) = 1.
Proof. pose proof (proj1 an_exp_good (gof_Z 0) (proj1 zero_fn) (proj2 zero_fn)) as H. unfold an_exp in H. change (value (gof_Z 0 : f32)) with (B2R (gof_Z 0 : f32)) in H. rewrite (proj2 zero_fn), exp_0 in H. exact H. Qed.
Lemma to_f32_1 : to_f32 1 = gof_Z 1.
Proof.
  destruct to_f32_one as [F V]. destruct one_fn as [F1 V1]. unfold value in V. destruct (to_f32 1) as [s|s| |s m e H]; try discriminate F; [cbn in V; lra|]. apply B2R_inj; [reflexivity|reflexivity|]. rewrite V, V1. reflexivity.
Qed.
Lemma an_powf_good : good_powf an_powf.
Proof.
  split.
  - intros x e _ _ H. unfold an_powf. replace (Rpower (value x) (value e)) with 1; [exact to_f32_one|]. unfold Rpower. destruct H as [-> | ->]; [rewrite ln_1, Rmult_0_r|rewrite Rmult_0_l]; rewrite exp_0; reflexivity.
  - intros x e _ _ _ _ R. unfold an_powf. exact (to_f32_wide _ R).
Qed.
(** three years at 5% (in sixteenths), notional 100, at a yield of one eighth *)
Definition ex_virtual : virtual_bond := VirtualBond 3 sixteenth SemiAnnually (gof_Z 100).
Example c150_hypotheses_met : let v := ex_virtual in let f := IZR (freq_number (vb_freq v)) in let c := value (vb_coupon v) / f in good_powi an_powi /\ (Z.of_nat 6 = vb_year v * freq_number (vb_freq v))%Z /\
  finite eighth /\ Rabs (value eighth / f) <= / 2 /\ / 2 ^ 40 <= (1 + value eighth / f) ^ 6 <= 2 ^ 40 /\ finite (vb_coupon v) /\ / 2 ^ 40 <= c <= / 2 /\ (1 + c) ^ 6 <= 2 ^ 40 /\ finite (vb_notional v) /\ 1 <= value (vb_notional v) <= 2 ^ 40 /\
  value (vb_coupon v) <= value eighth.
Proof.
  cbn zeta. change (freq_number (vb_freq ex_virtual)) with 2%Z. cbn [ex_virtual vb_coupon vb_notional vb_year]. destruct eighth_value as (F8 & V8 & F16 & V16). destruct (small_fin 100 ltac:(lia)) as [F100 R100]. unfold real_of in R100. fold (value (gof_Z 100)) in R100.
  rewrite V8, V16, R100, p40. split; [exact an_powi_good|]. split; [reflexivity|]. split; [exact F8|]. split; [rewrite Rabs_pos_eq; lra|]. split; [split; cbn [pow]; lra|]. split; [exact F16|]. split; [lra|]. split; [cbn [pow]; lra|]. split; [exact F100|]. split; lra.
Qed.
Example c150_overflow_hypotheses_met : (2147483647 < vb_year (VirtualBond 2147483647 sixteenth SemiAnnually (gof_Z 100)) * freq_number SemiAnnually)%Z.
Proof. reflexivity. Qed.
(** the bond of C147 at a yield of one eighth, seen from 15 March 2024 *)
Definition yields_ok (b : bond) (first : odt) : bool :=
  match cashflows (fun x => x) b ex_eval (pricing_of b ex_eval) None None with
  | Ret (ROk m) => forallb (fun p => is_finite (snd p) && gle (snd p) (gof_Z 2) && gle (gof_Z 0) (snd p) &&
      match year_fraction (bd_cal b) first (fst p) StreetConvention with Ret (ROk t) => is_finite t && (geq t (gof_Z 0) || (gle (gdiv (gof_Z 1) (gof_Z 1000)) t && gle t (gof_Z 1))) | _ => false end) m && (length (future (pricing_of b ex_eval) m) =? 2)%nat
      && forallb (fun d => (instant first <=? instant d)%Z) (map fst (future (pricing_of b ex_eval) m)) && existsb (fun d => is_day (Ret d) first) (map fst (future (pricing_of b ex_eval) m))
  | _ => false
  end.
Lemma powers_grow : forall b e, 1 <= b <= 3 / 2 -> 0 <= e <= 2 -> 1 <= Rpower b e <= 9 / 4.
Proof.
  intros b e B H. split.
  - rewrite <- (Rpower_O b) by lra. apply Rle_Rpower; lra.
  - apply Rle_trans with (Rpower b (INR 2)); [apply Rle_Rpower; [lra|cbn; lra]|]. rewrite Rpower_pow by lra. cbn [pow]. assert (b * b <= 3 / 2 * (3 / 2)) by (apply Rmult_le_compat; lra). lra.
Qed.
Example c151_hypotheses_met : exists m first last, let b := ex_fixed in let pricing := pricing_of b ex_eval in let y := value eighth / IZR (freq_number (bd_freq b)) in good_powf an_powf /\
  cashflows (fun x => x) b ex_eval pricing None None = Ret (ROk m) /\ first_after pricing m first /\ last_until pricing b last /\ (od_day last <= od_day pricing)%Z /\ (od_day first - od_day last <= 16777216)%Z /\ bd_freq b <> NoFrequency /\
  finite eighth /\ Rabs y <= / 2 /\ length (future pricing m) = 2%nat /\ Forall (good_yield_flow (bd_cal b) (bd_freq b) pricing first (1 + y) 2) m.
Proof.
  set (first := day_of 2024 9 16). assert (H : yields_ok ex_fixed first = true) by (vm_compute; reflexivity). unfold yields_ok in H.
  destruct (cashflows (fun x => x) ex_fixed ex_eval (pricing_of ex_fixed ex_eval) None None) as [[m|]| |] eqn:EC; try discriminate H. exists m, first, (day_of 2024 1 1). cbn zeta.
  repeat (apply andb_true_iff in H; let X := fresh "H" in destruct H as [H X]). destruct eighth_value as (F8 & V8 & _).
  change (freq_number (bd_freq ex_fixed)) with 2%Z. rewrite V8. split; [exact an_powf_good|]. split; [exact EC|]. split; [|split; [|split; [|split; [|split; [|split; [exact F8|split; [rewrite Rabs_pos_eq; lra|split; [apply Nat.eqb_eq; assumption|]]]]]]]].
  - split.
    + apply existsb_exists in H0. destruct H0 as (d & I & E). apply is_day_eq in E. injection E as ->. exact I.
    + intros d I. rewrite forallb_forall in H1. apply Z.leb_le. apply H1. exact I.
  - right. split; [|reflexivity]. intros d I. cbn [ex_fixed ex_bond bd_rows map In] in I. destruct I as [<-|[<-|[]]]; apply Z.ltb_lt; vm_compute; reflexivity.
  - apply Z.leb_le. vm_compute. reflexivity.
  - apply Z.leb_le. vm_compute. reflexivity.
  - discriminate.
  - rewrite forallb_forall in H. apply List.Forall_forall. intros p I. specialize (H p I). apply andb_true_iff in H. destruct H as [H T]. apply andb_true_iff in H. destruct H as [H P0]. apply andb_true_iff in H. destruct H as [FF P2].
    destruct (small_fin 2 ltac:(lia)) as [F2 R2]. unfold real_of in R2. apply (proj1 (fin_le 24 128 _ _ _ _ zero_fn (conj FF eq_refl))) in P0. apply (proj1 (fin_le 24 128 _ _ _ _ (conj FF eq_refl) (conj F2 eq_refl))) in P2. rewrite R2 in P2.
    split; [exact FF|]. split; [unfold value; rewrite Rabs_pos_eq by exact P0; rewrite p30; lra|]. intros _.
    destruct (year_fraction (bd_cal ex_fixed) first (fst p) StreetConvention) as [[t|]| |] eqn:E; try discriminate T. apply andb_true_iff in T. destruct T as [Ft T].
    assert (K : exists w, fn (gdiv (gof_Z 1) (gof_Z 1000)) w /\ / 1001 <= w).
    { destruct (small_fin 1000 ltac:(lia)) as [F1 R1]. unfold real_of in R1. destruct (div_err (gof_Z 1) (gof_Z 1000) 1 1000 one_fn (conj F1 R1) ltac:(lra)) as (w & d & tt & Fw & D & TT & W). { apply two100_127. unfold two100. rewrite Rabs_pos_eq; lra. }
      exists w. split; [exact Fw|]. rewrite W. assert (TS : tiny <= e24 * / 100) by (pose proof QBondProofs.tiny_small; unfold e24 in *; lra). apply Rabs_le_inv in D, TT. unfold e24 in *. lra. }
    destruct K as (w & Fw & W).
    assert (T2 : value t = 0 \/ / 1001 <= value t <= 1).
    { apply orb_true_iff in T. destruct T as [T|T]; [left|right].
      - apply (proj1 (fin_eq 24 128 _ _ _ _ (conj Ft eq_refl) zero_fn)) in T. exact T.
      - apply andb_true_iff in T. destruct T as [T1 T2]. apply (proj1 (fin_le 24 128 _ _ _ _ Fw (conj Ft eq_refl))) in T1. apply (proj1 (fin_le 24 128 _ _ _ _ (conj Ft eq_refl) one_fn)) in T2. unfold value. lra. }
    exists (value t * 2). split; [exists t; split; [exact E|split; [exact Ft|split; [rewrite p20; lra|reflexivity]]]|]. split; [cbn [INR]; lra|]. rewrite p40. pose proof (powers_grow (1 + / 8 / 2) (value t * 2) ltac:(lra) ltac:(lra)). lra.
Qed.
(** a bond that pays once, on 15 March 2024, the pricing day *)
Definition ex_once (f : frequency) (d : odt) : bond := Bond (gof_Z 1) false [paid d (gof_Z 1)] (Some sixteenth) None None None (day_of 2024 1 1) (day_of 2024 1 1) None d (One (new_south_korea KrKrx)) StreetConvention ModifiedFollowing f 0 0.
Example c151_matured_hypotheses_met : exists m, let b := ex_once SemiAnnually ex_eval in let pricing := pricing_of b ex_eval in
  cashflows (fun x => x) b ex_eval pricing None None = Ret (ROk m) /\ future pricing m = [] /\ last_until pricing b ex_eval /\ od_day ex_eval = od_day (bd_maturity b) /\ od_day (bd_maturity b) = od_day pricing.
Proof.
  eexists. cbn zeta. split; [reflexivity|]. split; [reflexivity|]. split; [|split; reflexivity]. left. split; [left; reflexivity|]. split; [apply Z.leb_le; reflexivity|]. intros d [<-|[]] _. right. reflexivity.
Qed.
Example c151_no_frequency_hypotheses_met : exists x t, let d := day_of 2024 9 16 in let b := ex_once NoFrequency d in let pricing := pricing_of b ex_eval in
  (forall x e, finite e -> value e = 0 -> an_powf x e = gof_Z 1) /\ cashflows (fun x => x) b ex_eval pricing None None = Ret (ROk [(d, x)]) /\ (od_day pricing < od_day d)%Z /\ finite x /\
  year_fraction (bd_cal b) d d StreetConvention = Ret (ROk t) /\ finite t /\ last_until pricing b (day_of 2024 1 1) /\ (od_day (day_of 2024 1 1) <= od_day pricing)%Z /\ 0 < value eighth.
Proof.
  destruct (unit_usual (year_fraction (bd_cal (ex_once NoFrequency (day_of 2024 9 16))) (day_of 2024 9 16) (day_of 2024 9 16) StreetConvention) ltac:(vm_compute; reflexivity)) as (t & E & (Ft & _) & _).
  eexists. exists t. cbn zeta. split; [intros x e Fe Ve; unfold an_powf, Rpower; rewrite Ve, Rmult_0_l, exp_0; exact to_f32_1|]. split; [reflexivity|]. split; [apply Z.ltb_lt; vm_compute; reflexivity|]. split; [vm_compute; reflexivity|]. split; [exact E|]. split; [exact Ft|].
  split; [|split; [apply Z.leb_le; vm_compute; reflexivity|destruct eighth_value as (_ & -> & _); lra]]. right. split; [|reflexivity]. intros d [<-|[]]. apply Z.ltb_lt. vm_compute. reflexivity.
Qed.
Definition ex_basket : bond := Bond (gof_Z 1) false [paid (day_of 2024 9 16) sixteenth; paid (day_of 2025 3 17) sixteenth] (Some sixteenth) None None None (day_of 2024 1 1) (day_of 2024 1 1) (Some (day_of 2024 6 18)) (day_of 2025 3 17) (One (new_south_korea KrKrx)) StreetConvention ModifiedFollowing SemiAnnually 0 0.
Definition ex_future : ktbf := Ktbf (gof_Z 100) (day_of 2024 6 18) (day_of 2024 6 19) ex_virtual [ex_basket; ex_basket].
Example c152_hypotheses_met : exists disc guess D x, let find := fun (b : bond) (x g : f32) => Ret (ROk eighth) in let k := ex_future in let f := IZR (freq_number (vb_freq (kb_virtual k))) in
  ktbf_new (gof_Z 100) (day_of 2024 6 18) (day_of 2024 6 19) ex_virtual [ex_basket; ex_basket] = ROk k /\ forward_from (fun x => x) ex_eval disc (bd_maturity ex_basket) CSimple = Ret (ROk guess) /\
  bond_npv (fun x => x) (fun l => l) ex_eval disc None None ex_basket = Ret (ROk x) /\
  Forall2 (fun b y => exists x, bond_npv (fun x => x) (fun l => l) ex_eval disc None None b = Ret (ROk x) /\ find b x guess = Ret (ROk y)) (kb_bonds k) [eighth; eighth] /\
  Forall (fun y => finite y /\ Rabs (value y) <= f / 5) [eighth; eighth] /\ discount_at ex_eval disc (kb_maturity k) = Ret (ROk D) /\ finite D /\ / 2 ^ 20 <= value D <= 2 ^ 20.
Proof.
  destruct ex_curve as (c & t9 & H & RR & H9 & B). exists c. destruct (small_fin 0 ltac:(lia)) as [F0 R0]. unfold real_of in R0. fold (value (gof_Z 0)) in R0. destruct eighth_value as (F8 & V8 & _).
  destruct (bracket_forward c t9 ex_eval (day_of 2025 3 17) (gof_Z 0) eighth H RR H9 B F0 F8) as (r & Er & Fr & Br); [rewrite R0, V8; lra|vm_compute; reflexivity|]. exists r.
  destruct (time_priced c t9 (day_of 2024 6 18) H RR H9 B ltac:(vm_compute; reflexivity)) as (D & ED & FD & BD). exists D.
  assert (FO : flows_ok ex_basket = true) by (vm_compute; reflexivity). unfold flows_ok in FO.
  destruct (cashflows (fun x => x) ex_basket ex_eval (pricing_of ex_basket ex_eval) None None) as [[m|]| |] eqn:EC; try discriminate FO. apply andb_true_iff in FO. destruct FO as [FO L].
  assert (G : Forall (good_flow ex_eval c (pricing_of ex_basket ex_eval)) m).
  { rewrite forallb_forall in FO. apply List.Forall_forall. intros p I. specialize (FO p I). apply andb_true_iff in FO. destruct FO as [FO T]. apply andb_true_iff in FO. destruct FO as [FO P0]. apply andb_true_iff in FO. destruct FO as [FF P2].
    split; [exact FF|]. split; [|intros _; exact (time_priced c t9 _ H RR H9 B T)].
    destruct (small_fin 2 ltac:(lia)) as [F2 R2]. unfold real_of in R2. apply (proj1 (fin_le 24 128 _ _ _ _ zero_fn (conj FF eq_refl))) in P0. apply (proj1 (fin_le 24 128 _ _ _ _ (conj FF eq_refl) (conj F2 eq_refl))) in P2. rewrite R2 in P2.
    unfold value. rewrite Rabs_pos_eq by exact P0. rewrite p30. lra. }
  destruct (c147_value (fun x => x) (fun l => l) ex_eval c None None ex_basket m (fun l => Permutation_refl l) EC G (ex_intro _ D (conj ED (conj FD BD)))) as (x & X & _). { apply Nat.eqb_eq in L. rewrite L. lia. }
  exists x. cbn zeta. split; [reflexivity|]. split.
  { unfold forward_from. replace (instant (bd_maturity ex_basket) <? instant ex_eval)%Z with false by (vm_compute; reflexivity). exact Er. }
  split; [exact X|]. split; [repeat constructor; exists x; split; (exact X || reflexivity)|]. split; [|auto]. change (freq_number (vb_freq (kb_virtual ex_future))) with 2%Z. repeat constructor; try exact F8; rewrite V8, Rabs_pos_eq; lra.
Qed.
Print Assumptions c152_new.
Print Assumptions c152_no_bonds_refuted.
Print Assumptions c152_price.
