(** QCurveFacts.v -- what a zero curve holds: rates, factors, their accuracy. *)
From Coq Require Import ZArith List Bool Reals Lia Lra Ascii String.
From Flocq Require Import Core IEEE754.BinarySingleNaN.
From Verif Require Import Base CivilSpec FloatModel FloatFacts KrxModel QDateModel QCalSpec QPeriodModel QPeriodSpec
  QYearModel QFindModel QFindSpec QFindProofs QFindProps QInterpModel QInterpSpec QInterpProofs QFloatErr QLinProofs QLinProps QDivModel QDivProps QCurveModel QCurveSpec QCurveDates QCurveProofs.
Import ListNotations.
Open Scope R_scope.

(** ** exp near a point *)
Lemma exp_close : forall a b e, 0 <= e <= / 1000 -> Rabs (a - b) <= e -> Rabs (exp a - exp b) <= 1.002 * e * exp b.
Proof.
  intros a b e E H. set (h := a - b) in *. assert (Q : exp a = exp b * exp h) by (rewrite <- exp_plus; f_equal; unfold h; ring).
  rewrite Q. replace (exp b * exp h - exp b) with ((exp h - 1) * exp b) by ring. rewrite Rabs_mult, (Rabs_pos_eq (exp b)) by (left; apply exp_pos).
  apply Rmult_le_compat_r; [left; apply exp_pos|]. apply Rabs_le_inv in H.
  pose proof (exp_ineq1_le h) as L1. pose proof (exp_ineq1_le (- h)) as L2.
  assert (P : exp h * exp (- h) = 1) by (rewrite <- exp_plus, Rplus_opp_r; apply exp_0).
  assert (U : exp h * (1 - h) <= 1) by (rewrite <- P; apply Rmult_le_compat_l; [left; apply exp_pos|lra]).
  assert (U2 : exp h <= 1 + 1.002 * e).
  { destruct (Rle_or_lt (exp h) (1 + 1.002 * e)) as [|G]; [assumption|]. exfalso.
    assert (1 < (1 + 1.002 * e) * (1 - h) \/ e <= 0).
    { destruct (Rle_or_lt e 0); [right; assumption|left]. assert (0 < 1 + 1.002 * e) by lra.
      assert ((1 + 1.002 * e) * (1 - e) <= (1 + 1.002 * e) * (1 - h)) by (apply Rmult_le_compat_l; lra). nra. }
    destruct H0 as [H0|H0].
    - assert ((1 + 1.002 * e) * (1 - h) <= exp h * (1 - h)) by (apply Rmult_le_compat_r; lra). lra.
    - assert (h = 0) by lra. assert (exp h = 1) by (rewrite H1; apply exp_0). lra. }
  apply Rabs_le. lra.
Qed.
Lemma exp_bound : forall x, x <= 51 -> exp x <= IZR (2 ^ 81).
Proof.
  intros x H. apply Rle_trans with (exp 51).
  - destruct H as [H| ->]; [left; apply exp_increasing; exact H|right; reflexivity].
  - assert (E : exp 51 = exp 1 ^ 51).
    { rewrite <- (Rpower_pow 51 (exp 1)) by apply exp_pos. unfold Rpower. rewrite ln_exp. f_equal. cbn. lra. }
    rewrite E. apply Rle_trans with (3 ^ 51); [apply pow_incr; split; [left; apply exp_pos|exact exp_le_3]|].
    rewrite pow_IZR. apply IZR_le. apply Z.leb_le. reflexivity.
Qed.

(** ** What is true of every curve that can be reached *)
Definition small_rate (r : f32) : Prop := finite r /\ Rabs (value r) <= 0.5.
Section Sound.
Context (f_exp : f32 -> f32).
Record sound (c : curve) : Prop := Sound {
  so_rises : rises (cv_times c);
  so_29 : List.length (cv_times c) = 29%nat;
  so_rlen : List.length (cv_rates c) = 29%nat;
  so_first : exists t0, nth_error (cv_times c) 0 = Some t0 /\ value t0 = 0;
  so_last : exists t9, nth_error (cv_times c) 28 = Some t9 /\ 99 <= value t9 <= 101;
  so_rates : Forall small_rate (cv_rates c);
  so_factors : cv_factors c = factors f_exp (cv_rates c) (cv_times c);
  so_disc : linear_new (cv_times c) (cv_factors c) XNone false = Ret (ROk (cv_disc c)) }.

Context (GE : good_exp f_exp).
Lemma times_range : forall c, sound c -> forall i t, nth_error (cv_times c) i = Some t -> finite t /\ 0 <= value t <= 101.
Proof using.
  intros c S i t H. destruct (so_first c S) as (t0 & E0 & V0). destruct (so_last c S) as (t9 & E9 & V9). pose proof (so_rises c S) as RS.
  assert (LI : (i < 29)%nat) by (rewrite <- (so_29 c S); apply nth_error_Some; congruence).
  split; [pose proof RS as [F _]; rewrite List.Forall_forall in F; exact (F t (nth_error_In _ _ H))|].
  destruct (Nat.eq_dec i 0) as [->|N0]; [rewrite E0 in H; injection H as <-; lra|].
  pose proof (rises_lt _ RS 0 i t0 t ltac:(lia) E0 H) as A.
  destruct (Nat.eq_dec i 28) as [->|N9]; [rewrite E9 in H; injection H as <-; lra|].
  pose proof (rises_lt _ RS i 28 t t9 ltac:(lia) H E9) as B. lra.
Qed.
(** one cached factor *)
Lemma one_factor : forall r t, finite r -> Rabs (value r) <= 0.5 -> finite t -> 0 <= value t <= 101 ->
  let f := f_exp (gneg (gmul r t)) in
  finite f /\ 0 <= value f <= IZR (2 ^ 82) /\ Rabs (value f - exp (- (value r * value t))) <= exp (- (value r * value t)) * ((1 + value t) / 2 ^ 21) /\
  (value t = 0 -> value f = 1).
Proof using GE.
  intros r t Fr Br Ft Bt f. destruct GE as [G0 G1].
  assert (Bp : Rabs (value r * value t) <= 50.5).
  { rewrite Rabs_mult, (Rabs_pos_eq (value t)) by lra. apply Rabs_le_inv in Br. replace 50.5 with (0.5 * 101) by lra. apply Rmult_le_compat; try apply Rabs_pos; try lra. apply Rabs_le; lra. }
  assert (H127 : forall z, z <= 1000 -> z <= bpow radix2 127) by (intros z Hz; apply Rle_trans with (1 := Hz); apply two100_127; pose proof two100_pos; lra).
  destruct (mul_err r t (value r) (value t) (conj Fr eq_refl) (conj Ft eq_refl) ltac:(apply H127; lra)) as (v & dd & tt & Fv & D & TT & E).
  pose proof (fin_neg 24 128 _ _ Fv) as [Fn Vn].
  assert (e24_v : e24 = / 16777216) by reflexivity.
  assert (TS : tiny <= / 2 ^ 40).
  { unfold tiny. replace (/ 2 ^ 40) with (bpow radix2 (-40)) by (rewrite pow_IZR; reflexivity). apply bpow_le. lia. }
  assert (P40 : 2 ^ 40 = 1099511627776) by (rewrite pow_IZR; reflexivity). assert (P22 : 2 ^ 22 = 4194304) by (rewrite pow_IZR; reflexivity). assert (P21 : 2 ^ 21 = 2097152) by (rewrite pow_IZR; reflexivity).
  rewrite P40 in TS. pose proof tiny_pos as TP.
  assert (Dv : Rabs (v - value r * value t) <= 0.51 * e24 * value t + tiny).
  { rewrite E. replace (value r * value t * (1 + dd) + tt - value r * value t) with (value r * value t * dd + tt) by ring.
    apply Rle_trans with (1 := Rabs_triang _ _). apply Rplus_le_compat; [|exact TT]. rewrite !Rabs_mult, (Rabs_pos_eq (value t)) by lra.
    apply Rle_trans with (0.5 * value t * e24).
    - apply Rmult_le_compat; [apply Rmult_le_pos; [apply Rabs_pos|lra]|apply Rabs_pos|apply Rmult_le_compat_r; lra|exact D].
    - rewrite e24_v. nra. }
  assert (Bn : Rabs (value (gneg (gmul r t))) <= 51).
  { unfold value. rewrite Vn, Rabs_Ropp. replace v with ((v - value r * value t) + value r * value t) by ring. apply Rle_trans with (1 := Rabs_triang _ _). rewrite e24_v in Dv. lra. }
  destruct (G1 _ Fn ltac:(lra)) as [Ff Af]. fold f in Ff, Af. unfold value in Af at 2 3. rewrite Vn in Af. rewrite P22 in Af.
  pose proof (exp_pos (- v)) as EP. pose proof (exp_pos (- (value r * value t))) as EQ.
  split; [exact Ff|]. split; [|split].
  - apply Rabs_le_inv in Af. assert (exp (- v) <= IZR (2 ^ 81)).
    { apply exp_bound. unfold value in Bn. rewrite Vn in Bn. apply Rabs_le_inv in Bn. lra. }
    change (IZR (2 ^ 82)) with (IZR (2 * 2 ^ 81)). rewrite mult_IZR. lra.
  - pose proof (exp_close (- v) (- (value r * value t)) (0.51 * e24 * value t + tiny)) as EC.
    specialize (EC ltac:(rewrite e24_v; lra) ltac:(replace (- v - - (value r * value t)) with (- (v - value r * value t)) by ring; rewrite Rabs_Ropp; exact Dv)).
    replace (value f - exp (- (value r * value t))) with ((value f - exp (- v)) + (exp (- v) - exp (- (value r * value t)))) by ring.
    apply Rle_trans with (1 := Rabs_triang _ _). set (X := exp (- (value r * value t))) in *. set (Y := exp (- v)) in *.
    assert (EY : Y <= 1.001 * X).
    { apply Rabs_le_inv in EC. assert (1.002 * (0.51 * e24 * value t + tiny) * X <= 0.001 * X) by (apply Rmult_le_compat_r; [lra|]; rewrite e24_v; lra). lra. }
    apply Rle_trans with (1.001 * X / 4194304 + 1.002 * (0.51 * e24 * value t + tiny) * X); [apply Rplus_le_compat; [lra|exact EC]|].
    replace (1.001 * X / 4194304 + 1.002 * (0.51 * e24 * value t + tiny) * X) with (X * (1.001 / 4194304 + 1.002 * (0.51 * e24 * value t + tiny))) by field.
    apply Rmult_le_compat_l; [lra|]. rewrite e24_v, P21. lra.
  - intro Z0. apply G0; [exact Fn|]. unfold value. rewrite Vn.
    assert (v = 0); [|lra]. destruct Fv as [_ Vv]. pose proof (fin_mul 24 128 r t (value r) (value t) (conj Fr eq_refl) (conj Ft eq_refl)) as FM.
    rewrite Z0, Rmult_0_r, rnd_0 in FM. specialize (FM ltac:(rewrite Rabs_R0; apply bpow_ge_0)). destruct FM as [_ VM]. unfold value in *. congruence.
Qed.
Lemma factors_nth : forall rs ts i f, nth_error (factors f_exp rs ts) i = Some f -> exists r t, nth_error rs i = Some r /\ nth_error ts i = Some t /\ f = f_exp (gneg (gmul r t)).
Proof using.
  unfold factors. induction rs as [|r rs IH]; intros ts i f H; [destruct i; discriminate H|]. destruct ts as [|t ts]; [destruct i; discriminate H|].
  destruct i as [|i]; cbn [combine map nth_error fst snd] in H.
  - exists r, t. split; [reflexivity|]. split; [reflexivity|]. congruence.
  - exact (IH ts i f H).
Qed.
Lemma factors_nth' : forall rs ts i r t, nth_error rs i = Some r -> nth_error ts i = Some t -> nth_error (factors f_exp rs ts) i = Some (f_exp (gneg (gmul r t))).
Proof using.
  unfold factors. induction rs as [|r0 rs IH]; intros ts i r t Hr Ht; [destruct i; discriminate Hr|]. destruct ts as [|t0 ts]; [destruct i; discriminate Ht|].
  destruct i as [|i]; cbn [combine map nth_error fst snd] in *; [congruence|]. exact (IH ts i r t Hr Ht).
Qed.
Lemma factors_length : forall rs ts, List.length rs = List.length ts -> List.length (factors f_exp rs ts) = List.length ts.
Proof using. intros rs ts H. unfold factors. rewrite map_length, combine_length, H. apply Nat.min_id. Qed.
Lemma factor_at : forall c, sound c -> forall i f, nth_error (cv_factors c) i = Some f ->
  exists r t, nth_error (cv_rates c) i = Some r /\ nth_error (cv_times c) i = Some t /\ f = f_exp (gneg (gmul r t)) /\
    finite f /\ 0 <= value f <= IZR (2 ^ 82) /\ Rabs (value f - exp (- (value r * value t))) <= exp (- (value r * value t)) * ((1 + value t) / 2 ^ 21) /\
    (value t = 0 -> value f = 1).
Proof using GE.
  intros c S i f H. rewrite (so_factors c S) in H. destruct (factors_nth _ _ _ _ H) as (r & t & Hr & Ht & ->). exists r, t. split; [exact Hr|]. split; [exact Ht|]. split; [reflexivity|].
  destruct (times_range c S i t Ht) as [Ft Bt]. pose proof (so_rates c S) as SR. rewrite List.Forall_forall in SR. destruct (SR r (nth_error_In _ _ Hr)) as [Fr Br].
  exact (one_factor r t Fr Br Ft Bt).
Qed.
(** with any bound on the factors below 2^88, the factors are gentle *)
Lemma sound_gentle : forall c M, sound c -> Forall (fun f => Rabs (value f) <= M) (cv_factors c) -> M <= 2 ^ 88 -> gentle (cv_times c) (cv_factors c) M.
Proof using GE.
  intros c M S B HM. pose proof (so_rises c S) as [FT RT]. assert (P88 : 2 ^ 88 * 4096 = 2 ^ 100) by (rewrite !pow_IZR, <- mult_IZR; reflexivity).
  assert (P0 : 1 <= 2 ^ 88) by (rewrite pow_IZR; apply IZR_le; apply Z.leb_le; reflexivity).
  split; [rewrite (so_factors c S); symmetry; apply factors_length; rewrite (so_29 c S); exact (so_rlen c S)|]. split; [exact FT|]. split; [apply rises_sorted; split; assumption|].
  split; [|split].
  - apply List.Forall_forall. intros f I. destruct (In_nth_error _ _ I) as (i & Hi). destruct (factor_at c S i f Hi) as (_ & _ & _ & _ & _ & Ff & _). split; [exact Ff|].
    rewrite List.Forall_forall in B. exact (B f I).
  - lra.
  - intros i a b u w Ha Hb Hu Hw. pose proof (RT i a b Ha Hb) as G. destruct (times_range c S _ _ Ha) as [_ Ba]. destruct (times_range c S _ _ Hb) as [_ Bb].
    unfold real_of. unfold value in *. split; [lra|]. rewrite List.Forall_forall in B. pose proof (B u (nth_error_In _ _ Hu)) as Bu. pose proof (B w (nth_error_In _ _ Hw)) as Bw.
    apply Rle_trans with (2 * M); [apply abs_le_2; assumption|]. apply Rle_trans with (2 ^ 100 * / 2048); [rewrite <- P88; lra|].
    apply Rmult_le_compat_l; [rewrite <- P88; lra|lra].
Qed.
End Sound.
