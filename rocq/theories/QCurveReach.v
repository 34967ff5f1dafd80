(** QCurveReach.v -- construction and bumps give sound curves. *)
From Coq Require Import ZArith List Bool Reals Lia Lra Ascii String.
From Flocq Require Import Core IEEE754.BinarySingleNaN.
From Verif Require Import Base CivilSpec FloatModel FloatFacts KrxModel QDateModel QCalSpec QPeriodModel QPeriodSpec
  QYearModel QFindModel QFindSpec QFindProofs QFindProps QInterpModel QInterpSpec QInterpProofs QFloatErr QLinProofs QLinProps QDivModel QDivProps QCurveModel QCurveSpec QCurveDates QCurveProofs QCurveFacts.
Import ListNotations.
Open Scope R_scope.

Lemma rises_new : forall ts vs extra allow, rises ts -> ts <> [] -> List.length ts = List.length vs -> linear_new ts vs extra allow = Ret (ROk (Linear ts vs (slopes ts vs) extra allow)).
Proof.
  intros ts vs extra allow RS N L. destruct (linear_new_cases ts vs extra allow) as [(A & E)|[(A & B & E)|[(A & B & (i & a & b & Ha & Hb & G) & E)|(A & B & C & E)]]]; try congruence.
  exfalso. pose proof (rises_sorted ts RS i (i + 1)%nat a b ltac:(lia) Ha Hb) as LT. unfold lt in LT. congruence.
Qed.

(** ** The rates *)
Definition good_rates (ts vs : list f32) : Prop :=
  List.length ts = List.length vs /\ Forall (fun v => finite v /\ Rabs (value v) <= 0.4) vs /\ (List.length vs = 1%nat \/ ((2 <= List.length vs)%nat /\ gentle ts vs 0.4)).
(** the rate the curve holds for the time [t] *)
Definition rate_ok (ts vs : list f32) (t r : f32) : Prop :=
  finite r /\ exists rho, rate_at ts vs (value t) rho /\ Rabs rho <= 0.4 /\ Rabs (value r - rho) <= 7 / 2 ^ 24.
Lemma exact_rate : forall ts vs t v rho, finite v -> rate_at ts vs (value t) rho -> value v = rho -> Rabs rho <= 0.4 -> rate_ok ts vs t v.
Proof.
  intros ts vs t v rho F RA E B. split; [exact F|]. exists rho. split; [exact RA|]. split; [exact B|]. rewrite E, Rminus_diag_eq, Rabs_R0 by reflexivity.
  apply Rmult_le_pos; [lra|]. left. apply Rinv_0_lt_compat. apply pow_lt. lra.
Qed.
Lemma rate_point : forall ts vs l t, gentle ts vs 0.4 -> (2 <= List.length ts)%nat -> linear_new ts vs XFlat true = Ret (ROk l) -> finite t ->
  exists r, linear_interpolate l t = Ret (ROk r) /\ rate_ok ts vs t r.
Proof.
  intros ts vs l t G L2 E Ft. pose proof G as (L & FD & SD & FV & _ & GS). pose proof (finite_numbers ts FD) as ND. pose proof (strict_sorted fcmp ts SD) as SV.
  destruct (at_lt _ ts 0 ltac:(lia)) as (d0 & H0 & _). destruct (at_lt _ ts 1 ltac:(lia)) as (d1 & H1 & _).
  destruct (at_lt _ ts (List.length ts - 2)%nat ltac:(lia)) as (d8 & H8 & _). destruct (at_lt _ ts (List.length ts - 1)%nat ltac:(lia)) as (d9 & H9 & _).
  destruct (at_lt _ vs 0 ltac:(lia)) as (v0 & V0 & _). destruct (at_lt _ vs 1 ltac:(lia)) as (v1 & V1 & _).
  destruct (at_lt _ vs (List.length ts - 2)%nat ltac:(lia)) as (v8 & V8 & _). destruct (at_lt _ vs (List.length ts - 1)%nat ltac:(lia)) as (v9 & V9 & _).
  destruct (c117_outside ts vs XFlat true l t d0 d1 d8 d9 v0 v1 v8 v9 E ND SV (finite_number t Ft) L2 H0 H1 H8 H9 V0 V1 V8 V9) as [O1 O2].
  rewrite List.Forall_forall in FD, FV. pose proof (FD d0 (nth_error_In _ _ H0)) as F0. pose proof (FD d9 (nth_error_In _ _ H9)) as F9.
  destruct (Rle_or_lt (value d0) (value t)) as [G0|G0]; [destruct (Rle_or_lt (value d9) (value t)) as [G9|G9]|].
  - assert (Q : le fcmp d9 t) by (apply fle_finite; assumption). rewrite (O2 Q). exists v9. split; [reflexivity|]. destruct (FV v9 (nth_error_In _ _ V9)) as [Fv Bv].
    apply exact_rate with (value v9); [exact Fv| |reflexivity|exact Bv]. right. right. left. exists d9, v9. split; [exact H9|]. split; [rewrite <- L; exact V9|]. split; [exact G9|reflexivity].
  - assert (P24 : 2 ^ 24 = 16777216) by (rewrite pow_IZR; reflexivity).
    destruct (c114_accurate ts vs XFlat true 0.4 l t d0 d9 G E Ft H0 H9 (conj G0 G9)) as (i & a & b & u & w & r & Ha & Hb & Hu & Hw & X & EI & Fr & A).
    exists r. split; [exact EI|]. split; [exact Fr|]. exists (straight (real_of a) (real_of b) (real_of u) (real_of w) (real_of t)).
    destruct (GS i a b u w Ha Hb Hu Hw) as [GB _]. destruct (FV u (nth_error_In _ _ Hu)) as [_ Bu]. destruct (FV w (nth_error_In _ _ Hw)) as [_ Bw].
    assert (AB : real_of a < real_of b) by lra. split; [|split].
    + right. right. right. exists i, a, b, u, w. split; [exact Ha|]. split; [exact Hb|]. split; [exact Hu|]. split; [exact Hw|]. split; [exact X|].
      unfold straight, value, real_of. unfold Rdiv. ring.
    + change (straight (real_of a) (real_of b) (real_of u) (real_of w) (real_of t)) with (chord (real_of a) (real_of b) (real_of u) (real_of w) (real_of t)).
      apply chord_bounds; [lra|lra|exact Bu|exact Bw].
    + apply Rle_trans with (1 := A). rewrite P24.
      assert (T : / 2 ^ 149 * (1 + (real_of b - real_of a)) <= / 2 ^ 40).
      { apply Rle_trans with (/ 2 ^ 149 * (2 ^ 101)).
        - apply Rmult_le_compat_l; [left; apply Rinv_0_lt_compat; apply pow_lt; lra|]. replace (2 ^ 101) with (2 * 2 ^ 100) by (change 101%nat with (1 + 100)%nat; rewrite pow_add; lra).
          assert (1 <= 2 ^ 100) by (apply pow_R1_Rle; lra). lra.
        - assert (Q : 2 ^ 149 = 2 ^ 101 * 2 ^ 48) by (change 149%nat with (101 + 48)%nat; apply pow_add). rewrite Q, Rinv_mult.
          assert (0 < 2 ^ 101) by (apply pow_lt; lra). replace (/ 2 ^ 101 * / 2 ^ 48 * 2 ^ 101) with (/ 2 ^ 48) by (field; split; apply pow_nonzero; lra).
          apply Rinv_le; [apply pow_lt; lra|]. apply Rle_pow; [lra|lia]. }
      assert (P40 : 2 ^ 40 = 1099511627776) by (rewrite pow_IZR; reflexivity). rewrite P40 in T. lra.
  - assert (Q : lt fcmp t d0) by (apply flt_finite; assumption). rewrite (O1 Q). exists v0. split; [reflexivity|]. destruct (FV v0 (nth_error_In _ _ V0)) as [Fv Bv].
    apply exact_rate with (value v0); [exact Fv| |reflexivity|exact Bv]. right. left. exists d0, v0. auto.
Qed.
Lemma rates_grid : forall ts vs xs, good_rates ts vs -> rises xs ->
  exists r, (vs <> [] /\ match vs with [] => Ret RErr | [z] => Ret (ROk (RConst z)) | _ => let? l := linear_new ts vs XFlat true in Ret (ROk (RLin l)) end = Ret (ROk r)) /\
  exists rs, rates_at r xs = Ret (ROk rs) /\ Forall2 (rate_ok ts vs) xs rs.
Proof.
  intros ts vs xs (L & FV & H) RS. destruct H as [H1|[H2 G]].
  - destruct vs as [|z [|]]; try discriminate H1. inversion FV as [|? ? [Fz Bz] _]; subst. exists (RConst z). split; [split; [discriminate|reflexivity]|].
    exists (repeat z (List.length xs)). split; [reflexivity|]. clear RS. induction xs as [|x xs IH]; cbn [List.length repeat]; constructor; [|exact IH].
    apply exact_rate with (value z); [exact Fz| |reflexivity|exact Bz]. left. exists z. auto.
  - pose proof G as (_ & FD & SD & _).
    assert (LE : linear_new ts vs XFlat true = Ret (ROk (Linear ts vs (slopes ts vs) XFlat true))).
    { destruct (linear_new_cases ts vs XFlat true) as [(A & E)|[(A & B & E)|[(A & B & (i & a & b & Ha & Hb & Q) & E)|(A & B & C & E)]]]; try congruence.
      - subst ts. cbn in L. lia.
      - exfalso. pose proof (SD i (i + 1)%nat a b ltac:(lia) Ha Hb) as LT. unfold lt in LT. congruence. }
    set (l := Linear ts vs (slopes ts vs) XFlat true) in *. exists (RLin l). split.
    + destruct vs as [|z [|z2 vs]]; cbn [List.length] in H2; try lia. split; [discriminate|]. rewrite LE. reflexivity.
    + pose proof RS as [FX _]. destruct (c116_same ts vs XFlat true l xs LE (finite_numbers _ FD) SD ltac:(lia) (finite_numbers _ FX) (strict_sorted fcmp xs (rises_sorted xs RS))) as (a & EA & P).
      assert (PT : forall t, In t xs -> exists r, linear_interpolate l t = Ret (ROk r) /\ rate_ok ts vs t r).
      { intros t I. apply rate_point; [exact G|lia|exact LE|]. rewrite List.Forall_forall in FX. exact (FX t I). }
      cbn [rates_at]. rewrite EA. destruct a as [rs|].
      * exists rs. split; [reflexivity|]. cbn [pointwise] in P. clear - P PT. induction P as [|x r xs rs E _ IH]; constructor.
        -- destruct (PT x (or_introl eq_refl)) as (r' & E' & Q). rewrite E in E'. injection E' as ->. exact Q.
        -- apply IH. intros t I. apply PT. right. exact I.
      * exfalso. cbn [pointwise] in P. apply List.Exists_exists in P. destruct P as (x & I & E). destruct (PT x I) as (r' & E' & _). rewrite E in E'. discriminate E'.
Qed.
Lemma rate_ok_small : forall ts vs t r, rate_ok ts vs t r -> small_rate r.
Proof.
  intros ts vs t r (F & rho & _ & B & E). split; [exact F|]. assert (P24 : 2 ^ 24 = 16777216) by (rewrite pow_IZR; reflexivity). rewrite P24 in E.
  apply Rabs_le_inv in B. apply Rabs_le_inv in E. apply Rabs_le. lra.
Qed.

Section Reach.
Context (f_exp : f32 -> f32).
Lemma new_sound : forall y m d ns off data, civil_ok y m d ns -> (y + 100 <= 9999)%Z -> (-93599 <= off <= 93599)%Z -> good_rates (vd_times data) (vd_value data) ->
  exists c, curve_new f_exp (civil y m d ns off) data = Ret (ROk c) /\ sound f_exp c /\ Forall2 (moment y m d ns off) grid (cv_times c) /\
    Forall2 (rate_ok (vd_times data) (vd_value data)) (cv_times c) (cv_rates c).
Proof using.
  intros y m d ns off data C R O G. destruct (grid_times y m d ns off C R O) as (ts & t9 & E & MO & RS & (t0 & H0 & V0) & H9 & L & B9).
  destruct (rates_grid (vd_times data) (vd_value data) ts G RS) as (r & (NE & ER) & rs & EA & RO).
  unfold curve_new. pose proof G as (LE & _). rewrite LE, Nat.eqb_refl. cbn [negb]. rewrite ER. cbn [obind rbind]. rewrite E. cbn [obind]. rewrite EA. cbn [obind rbind].
  assert (LR : List.length rs = 29%nat) by (rewrite <- (forall2_len _ _ _ _ _ RO); exact L).
  assert (LN : linear_new ts (factors f_exp rs ts) XNone false = Ret (ROk (Linear ts (factors f_exp rs ts) (slopes ts (factors f_exp rs ts)) XNone false))).
  { apply rises_new; [exact RS|intros ->; discriminate L|]. rewrite factors_length by congruence. reflexivity. }
  rewrite LN. cbn [obind rbind]. eexists. split; [reflexivity|]. cbn [cv_times cv_rates]. split; [|split; assumption].
  constructor; cbn [cv_times cv_rates cv_factors cv_disc]; try assumption.
  - exists t0. auto.
  - exists t9. auto.
  - clear - RO. induction RO as [|t r ts rs Q _ IH]; constructor; [exact (rate_ok_small _ _ _ _ Q)|exact IH].
  - reflexivity.
Qed.

(** ** Bumps *)
Definition hit (t1 t2 : option f32) (x : f32) : bool :=
  o_gt fcmp x (match t1 with None => gof_Z (-99999999) | Some t => t end) && o_le fcmp x (match t2 with None => gof_Z 99999999 | Some t => t end).
Definition bumped (t1 t2 : option f32) (b : f32) (t r : f32) : f32 := gadd r (gmul (if hit t1 t2 t then gof_Z 1 else gof_Z 0) b).
Lemma bump_shape : forall c t1 t2 b, sound f_exp c ->
  (o_gt fcmp (match t1 with None => gof_Z (-99999999) | Some t => t end) (match t2 with None => gof_Z 99999999 | Some t => t end) = true -> bump_times f_exp c t1 t2 b = Ret (RErr, c)) /\
  (o_gt fcmp (match t1 with None => gof_Z (-99999999) | Some t => t end) (match t2 with None => gof_Z 99999999 | Some t => t end) = false ->
   exists c', bump_times f_exp c t1 t2 b = Ret (ROk tt, c') /\ cv_times c' = cv_times c /\
    cv_rates c' = map (fun p => bumped t1 t2 b (snd p) (fst p)) (combine (cv_rates c) (cv_times c)) /\
    cv_factors c' = factors f_exp (cv_rates c') (cv_times c) /\ linear_new (cv_times c) (cv_factors c') XNone false = Ret (ROk (cv_disc c'))).
Proof using.
  intros c t1 t2 b S. unfold bump_times. rewrite (so_29 _ c S), (so_rlen _ c S). cbn [Nat.eqb negb]. split; intro Q; rewrite Q; [reflexivity|].
  set (rates := map (fun p => gadd (fst p) (gmul (snd p) b)) (combine (cv_rates c) (map _ (cv_times c)))).
  assert (ER : rates = map (fun p => bumped t1 t2 b (snd p) (fst p)) (combine (cv_rates c) (cv_times c))).
  { unfold rates. generalize (cv_rates c) (cv_times c). clear. induction l as [|r rs IH]; intros [|t ts]; try reflexivity. cbn [map combine fst snd]. rewrite IH. reflexivity. }
  assert (LR : List.length rates = 29%nat) by (rewrite ER, map_length, combine_length, (so_29 _ c S), (so_rlen _ c S); reflexivity).
  clearbody rates. pose proof (so_rises _ c S) as RS. assert (NE : cv_times c <> []) by (intro Z0; pose proof (so_29 _ c S) as L; rewrite Z0 in L; discriminate L).
  assert (L1 : linear_new (cv_times c) rates XFlat true = Ret (ROk (Linear (cv_times c) rates (slopes (cv_times c) rates) XFlat true))).
  { apply rises_new; [exact RS|exact NE|]. rewrite LR. exact (so_29 _ c S). }
  assert (L2 : linear_new (cv_times c) (factors f_exp rates (cv_times c)) XNone false = Ret (ROk (Linear (cv_times c) (factors f_exp rates (cv_times c)) (slopes (cv_times c) (factors f_exp rates (cv_times c))) XNone false))).
  { apply rises_new; [exact RS|exact NE|]. rewrite factors_length; [reflexivity|]. rewrite LR. symmetry. exact (so_29 _ c S). }
  assert (M : match rates with [z] => Ret (ROk (RConst z)) | _ => let? l := linear_new (cv_times c) rates XFlat true in Ret (ROk (RLin l)) end = Ret (ROk (RLin (Linear (cv_times c) rates (slopes (cv_times c) rates) XFlat true)))).
  { destruct rates as [|z [|z2 rates]]; try discriminate LR. rewrite L1. reflexivity. }
  rewrite M. cbn [obind]. rewrite L2. cbn [obind]. eexists. split; [reflexivity|]. cbn [cv_times cv_rates cv_factors cv_disc]. split; [reflexivity|]. split; [exact ER|]. split; [reflexivity|exact L2].
Qed.
Lemma bump_sound : forall c t1 t2 b r c', sound f_exp c -> bump_times f_exp c t1 t2 b = Ret (r, c') -> Forall small_rate (cv_rates c') -> sound f_exp c'.
Proof using.
  intros c t1 t2 b r c' S E SR. destruct (bump_shape c t1 t2 b S) as [A B].
  destruct (o_gt fcmp (match t1 with None => gof_Z (-99999999) | Some t => t end) (match t2 with None => gof_Z 99999999 | Some t => t end)).
  - rewrite (A eq_refl) in E. injection E as <- <-. exact S.
  - destruct (B eq_refl) as (c1 & E1 & T & RR & F & LN). rewrite E1 in E. injection E as <- <-.
    constructor; rewrite ?T; try apply S; try assumption.
    rewrite RR, map_length, combine_length, (so_29 _ c S), (so_rlen _ c S). reflexivity.
Qed.
End Reach.
