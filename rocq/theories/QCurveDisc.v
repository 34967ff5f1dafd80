(** QCurveDisc.v -- discount factors between the cached times. *)
From Coq Require Import ZArith List Bool Reals Lia Lra.
From Flocq Require Import Core IEEE754.BinarySingleNaN.
From Verif Require Import Base CivilSpec FloatModel FloatFacts KrxModel QFindModel QFindSpec QFindProofs QFindProps QInterpModel QInterpSpec QInterpProofs QFloatErr QLinProofs QLinProps
  QCurveModel QCurveSpec QCurveDates QCurveProofs QCurveFacts QCurveReach.
Import ListNotations.
Open Scope R_scope.

Lemma inside_formula : forall d v extra allow l x d0 d9, rises d -> linear_new d v extra allow = Ret (ROk l) -> finite x ->
  nth_error d 0 = Some d0 -> nth_error d (List.length d - 1) = Some d9 -> value d0 <= value x < value d9 ->
  exists i a b u w, nth_error d i = Some a /\ nth_error d (i + 1) = Some b /\ nth_error v i = Some u /\ nth_error v (i + 1) = Some w /\
    value a <= value x < value b /\ linear_interpolate l x = Ret (ROk (gadd u (gmul (gdiv (gsub w u) (gsub b a)) (gsub x a)))).
Proof.
  intros d v extra allow l x d0 d9 RS E Fx H0 H9 [X0 X9]. pose proof RS as [FD _]. pose proof (rises_sorted d RS) as SD.
  destruct (linear_new_cases d v extra allow) as [(A & E')|[(A & B & E')|[(A & B & _ & E')|(A & B & C & E')]]]; rewrite E in E'; try discriminate E'. injection E' as ->. clear E.
  pose proof (finite_numbers d FD) as ND. pose proof (finite_number x Fx) as Nx. rewrite List.Forall_forall in FD.
  assert (F0 : finite d0) by (eauto using nth_error_In). assert (F9 : finite d9) by (eauto using nth_error_In).
  assert (G0 : le fcmp d0 x) by (apply fle_finite; assumption). assert (G9 : lt fcmp x d9) by (apply flt_finite; assumption).
  pose proof (strict_sorted fcmp d SD) as SV.
  unfold linear_interpolate. cbn [l_domain]. rewrite (inside_at d v extra allow ND x d0 d9 _ Nx H0 H9 G0 G9).
  destruct (bs_total fcmp d x B) as (i & E & Li). rewrite E. cbn [obind].
  pose proof (bs_place fcmp number f_order d x ND Nx SV SD i E) as (_ & _ & _ & PL).
  destruct (PL d0 d9 H0 H9 G0 G9) as (a & b & Ha & Hb & LA & LB).
  assert ((i + 1 < List.length d)%nat) by (apply nth_error_Some; congruence).
  destruct (at_lt _ v i ltac:(lia)) as (u & Hu & _). destruct (at_lt _ v (i + 1)%nat ltac:(lia)) as (w & Hw & _).
  rewrite (line_value d v extra allow i a b u w x Ha Hb Hu Hw).
  assert (Fa : finite a) by (eauto using nth_error_In). assert (Fb : finite b) by (eauto using nth_error_In).
  apply fle_finite in LA; try assumption. apply flt_finite in LB; try assumption.
  exists i, a, b, u, w. split; [exact Ha|]. split; [exact Hb|]. split; [exact Hu|]. split; [exact Hw|]. split; [split; assumption|]. reflexivity.
Qed.
(** a zero term changes nothing *)
Lemma plus_zero : forall u z : f32, finite u -> finite z -> value z = 0 -> finite (gadd u z) /\ value (gadd u z) = value u.
Proof.
  intros u z Fu Fz Z. unfold gadd, value in *. pose proof (Bplus_correct 24 128 _ _ mode_NE u z Fu Fz) as P.
  rewrite Z, Rplus_0_r in P. change (round radix2 (SpecFloat.fexp 24 128) (round_mode mode_NE) (B2R u)) with (rnd 24 128 (B2R u)) in P.
  rewrite (rnd_B2R 24 128) in P. rewrite Rlt_bool_true in P by apply abs_B2R_lt_emax. destruct P as (P1 & P2 & _). auto.
Qed.
Lemma zero_huge : Rabs 0 <= huge 128.
Proof. rewrite Rabs_R0, hug. apply bpow_ge_0. Qed.
Lemma same_sub : forall x y : f32, finite x -> finite y -> value x = value y -> finite (gsub x y) /\ value (gsub x y) = 0.
Proof.
  intros x y Fx Fy E. pose proof (fin_sub 24 128 x y _ _ (fin_of x Fx) (fin_of y Fy)) as A. unfold real_of, value in *.
  rewrite E, Rminus_diag_eq, rnd_0 in A by (try reflexivity; exact p24). destruct (A zero_huge) as [A1 A2]. auto.
Qed.
Lemma mul_zero : forall x y : f32, finite x -> finite y -> (value x = 0 \/ value y = 0) -> finite (gmul x y) /\ value (gmul x y) = 0.
Proof.
  intros x y Fx Fy E. pose proof (fin_mul 24 128 x y _ _ (fin_of x Fx) (fin_of y Fy)) as A. unfold real_of, value in *.
  assert (Z : B2R x * B2R y = 0) by (destruct E as [-> | ->]; ring). rewrite Z, rnd_0 in A by exact p24. destruct (A zero_huge) as [A1 A2]. auto.
Qed.
Lemma div_of_zero : forall x y : f32, finite x -> finite y -> value x = 0 -> value y <> 0 -> finite (gdiv x y) /\ value (gdiv x y) = 0.
Proof.
  intros x y Fx Fy Z N. pose proof (fin_div 24 128 x y _ _ (fin_of x Fx) (fin_of y Fy) N) as A. unfold real_of, value in *.
  rewrite Z in A. unfold Rdiv in A. rewrite Rmult_0_l, rnd_0 in A by exact p24. destruct (A zero_huge) as [A1 A2]. auto.
Qed.
(** dividing by a zero never gives a number *)
Lemma div_zero : forall x z : f32, finite z -> value z = 0 -> is_finite (gdiv x z) = false.
Proof.
  intros x z Fz Z. destruct z as [s|s| |s m e B]; try discriminate Fz.
  - destruct x as [a|a| |a m e B]; reflexivity.
  - exfalso. unfold value in Z. cbn [B2R] in Z. unfold F2R in Z. cbn [Defs.Fnum Defs.Fexp] in Z. apply Rmult_integral in Z. destruct Z as [Z|Z].
    + apply eq_IZR in Z. destruct s; discriminate Z.
    + pose proof (bpow_gt_0 radix2 e). lra.
Qed.
(** a number other than zero divided by itself *)
Lemma div_same : forall x : f32, finite x -> value x <> 0 -> finite (gdiv x x) /\ value (gdiv x x) = 1.
Proof.
  intros x Fx N. pose proof (fin_div 24 128 x x _ _ (fin_of x Fx) (fin_of x Fx) N) as A. unfold real_of, value in *.
  replace (B2R x / B2R x) with (IZR 1) in A by (field; exact N).
  rewrite (rnd_int 24 128) in A by (apply Z.leb_le; reflexivity).
  destruct A as [A1 A2]; [rewrite hug, Rabs_pos_eq by lra; change (IZR 1) with (bpow radix2 0); apply bpow_le; lia|]. auto.
Qed.

Section Disc.
Context (f_exp : f32 -> f32) (GE : good_exp f_exp).
Notation sound := (sound f_exp).
Lemma ends : forall c, sound c -> exists t0 t9, nth_error (cv_times c) 0 = Some t0 /\ value t0 = 0 /\ finite t0 /\ nth_error (cv_times c) 28 = Some t9 /\ 99 <= value t9 <= 101 /\ finite t9 /\
  nth_error (cv_times c) (List.length (cv_times c) - 1) = Some t9.
Proof using.
  intros c S. destruct (so_first _ c S) as (t0 & H0 & V0). destruct (so_last _ c S) as (t9 & H9 & V9). exists t0, t9.
  split; [exact H0|]. split; [exact V0|]. split; [exact (proj1 (times_range _ c S _ _ H0))|]. split; [exact H9|]. split; [exact V9|]. split; [exact (proj1 (times_range _ c S _ _ H9))|].
  rewrite (so_29 _ c S). exact H9.
Qed.
Lemma all_bound : forall c, sound c -> Forall (fun f => Rabs (value f) <= 2 ^ 88) (cv_factors c).
Proof using GE.
  intros c S. apply List.Forall_forall. intros f I. destruct (In_nth_error _ _ I) as (j & Hj). destruct (factor_at f_exp GE c S j f Hj) as (_ & _ & _ & _ & _ & _ & B & _).
  rewrite Rabs_pos_eq by lra. apply Rle_trans with (1 := proj2 B). rewrite pow_IZR. apply IZR_le. apply Z.leb_le. reflexivity.
Qed.
(** where a time lies, and what the answer is made of *)
Lemma inside : forall c t t9, sound c -> finite t -> nth_error (cv_times c) 28 = Some t9 -> 0 <= value t < value t9 ->
  exists i a b u w ra rb, nth_error (cv_times c) i = Some a /\ nth_error (cv_times c) (i + 1) = Some b /\ nth_error (cv_factors c) i = Some u /\ nth_error (cv_factors c) (i + 1) = Some w /\
    nth_error (cv_rates c) i = Some ra /\ nth_error (cv_rates c) (i + 1) = Some rb /\ u = f_exp (gneg (gmul ra a)) /\ w = f_exp (gneg (gmul rb b)) /\
    value a <= value t < value b /\ discount c t = Ret (ROk (gadd u (gmul (gdiv (gsub w u) (gsub b a)) (gsub t a)))) /\
    finite (gdiv (gsub w u) (gsub b a)).
Proof using GE.
  intros c t t9 S Ft H9 X. destruct (ends c S) as (t0 & t9' & H0 & V0 & F0 & H9' & V9 & F9 & HL). assert (t9' = t9) by congruence. subst t9'.
  destruct (inside_formula (cv_times c) (cv_factors c) XNone false (cv_disc c) t t0 t9 (so_rises _ c S) (so_disc _ c S) Ft H0 HL ltac:(lra)) as (i & a & b & u & w & Ha & Hb & Hu & Hw & B & E).
  destruct (factor_at f_exp GE c S i u Hu) as (ra & a' & Hra & Ha' & Eu & _). destruct (factor_at f_exp GE c S (i + 1) w Hw) as (rb & b' & Hrb & Hb' & Ew & _).
  assert (a' = a) by congruence. assert (b' = b) by congruence. subst a' b'.
  pose proof (sound_gentle f_exp GE c (2 ^ 88) S (all_bound c S) ltac:(lra)) as G.
  destruct (gentle_slope _ _ _ i a b u w G Ha Hb Hu Hw) as (s & Fs & _).
  exists i, a, b, u, w, ra, rb. do 9 (split; [assumption|]). split; [exact E|exact (proj1 Fs)].
Qed.
(** close to the chord, in terms of the two factors around *)
Lemma near_chord : forall c i a b u w t M, sound c -> nth_error (cv_times c) i = Some a -> nth_error (cv_times c) (i + 1) = Some b ->
  nth_error (cv_factors c) i = Some u -> nth_error (cv_factors c) (i + 1) = Some w -> finite t -> value a <= value t < value b -> value u <= M -> value w <= M -> M <= 2 ^ 88 ->
  let y := gadd u (gmul (gdiv (gsub w u) (gsub b a)) (gsub t a)) in
  finite y /\ Rabs (value y - (value u + (value w - value u) * ((value t - value a) / (value b - value a)))) <= 12 / 2 ^ 24 * M + / 2 ^ 142.
Proof using GE.
  intros c i a b u w t M S Ha Hb Hu Hw Ft X Mu Mw HM y.
  destruct (factor_at f_exp GE c S i u Hu) as (_ & _ & _ & _ & _ & Fu & Bu & _). destruct (factor_at f_exp GE c S (i + 1) w Hw) as (_ & _ & _ & _ & _ & Fw & Bw & _).
  destruct (times_range _ c S _ _ Ha) as [Fa Ba]. destruct (times_range _ c S _ _ Hb) as [Fb Bb].
  pose proof (proj2 (so_rises _ c S) i a b Ha Hb) as AB.
  assert (G : gentle [a; b] [u; w] M).
  { split; [reflexivity|]. split; [repeat (apply Forall_cons; [assumption|]); apply Forall_nil|]. split.
    - intros p q x z L Hx Hz. assert (p = 0%nat /\ q = 1%nat) as [-> ->].
      { assert ((q < 2)%nat) by (change 2%nat with (List.length [a; b]); apply nth_error_Some; congruence). lia. }
      injection Hx as <-. injection Hz as <-. apply flt_finite; try assumption. unfold value in *. lra.
    - split; [apply Forall_cons; [split; [assumption|unfold real_of, value in *; rewrite Rabs_pos_eq; lra]|apply Forall_cons; [split; [assumption|unfold real_of, value in *; rewrite Rabs_pos_eq; lra]|apply Forall_nil]]|].
      assert (P88 : 2 ^ 88 * 4096 = 2 ^ 100) by (rewrite !pow_IZR, <- mult_IZR; reflexivity). assert (P0 : 1 <= 2 ^ 88) by (apply pow_R1_Rle; lra).
      split; [lra|]. intros p a' b' u' w' Ha' Hb' Hu' Hw'. assert (p = 0%nat) as ->.
      { assert ((p + 1 < 2)%nat) by (change 2%nat with (List.length [a; b]); apply nth_error_Some; congruence). lia. }
      injection Ha' as <-. injection Hb' as <-. injection Hu' as <-. injection Hw' as <-. unfold real_of, value in *. split; [lra|].
      apply Rle_trans with M; [apply Rabs_le; lra|]. apply Rle_trans with (2 ^ 100 * / 2048); [lra|]. apply Rmult_le_compat_l; lra. }
  destruct (gentle_line [a; b] [u; w] M 0 a b u w t G Ft eq_refl eq_refl eq_refl eq_refl ltac:(unfold real_of, value in *; lra)) as [Fy E].
  split; [exact Fy|]. unfold straight in E. unfold real_of, value in *. fold y in E.
  replace ((B2R w - B2R u) * ((B2R t - B2R a) / (B2R b - B2R a))) with ((B2R w - B2R u) / (B2R b - B2R a) * (B2R t - B2R a)) by (unfold Rdiv; ring).
  apply Rle_trans with (1 := E). apply Rplus_le_compat; [right; unfold Rdiv; ring|].
  apply Rle_trans with (/ 2 ^ 149 * 2 ^ 7).
  - apply Rmult_le_compat_l; [left; apply Rinv_0_lt_compat; apply pow_lt; lra|]. lra.
  - right. change 149%nat with (142 + 7)%nat. rewrite pow_add. field.
Qed.
End Disc.
