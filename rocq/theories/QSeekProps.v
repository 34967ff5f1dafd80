(** QSeekProps.v -- C209, C210: the yield that is found for a price. *)
From Coq Require Import ZArith List Permutation Reals Lra Lia Bool.
From Flocq Require Import Core IEEE754.BinarySingleNaN.
From Verif Require Import Base CivilSpec FloatModel FloatFacts KrxModel QDateModel QCalModel QPeriodModel QPeriodSpec QYearModel QSchedModel QSchedSpec QInterpModel QInterpSpec QCurveModel QCurveSpec QCurveFacts QFloatErr QLinProps QRollProofs QCurveProps QBondModel QBondSpec QBondProofs QBondPriceProps QYieldProofs QYieldProps QKtbfProps QMatchProps QWholeProofs QCurveExp QSeekModel QSeekSpec.
From Verif Require QCholProofs.
Import QCurveSpec QBondSpec.
Import ListNotations.
Open Scope R_scope.

(** ** C209 *)
Lemma priced_at : forall f_ln f_powf o o' eval fwd past bond_yield b m first last K, good_powf f_powf -> iterates o -> iterates o' -> terms f_ln eval fwd past b m first last -> usual_yield b (pricing_of b eval) first m K bond_yield ->
  exists x, yield_npv f_ln f_powf o o' eval fwd past bond_yield b = Ret (ROk x) /\ finite x /\ Rabs (value x - price_at b (pricing_of b eval) m first last (per_period b bond_yield)) <= price_error b (pricing_of b eval) m first last K (per_period b bond_yield).
Proof.
  intros f_ln f_powf o o' eval fwd past bond_yield b m first last K GP IT IT' (C & FA & LU & LP & KL & NF & N) (Fy & Y & HK & G).
  exact (c151_price f_ln f_powf o o' eval fwd past bond_yield b m first last K GP IT IT' C FA LU LP KL NF Fy Y HK N G).
Qed.
(** the cost at a yield does not depend on the yields tried before *)
Theorem c209_same : forall f_ln f_powf o o' p b npv y1 y2 y, snd (cost f_ln f_powf o o' (CostFunction b npv (set_bond_yield p y1)) y) = snd (cost f_ln f_powf o o' (CostFunction b npv (set_bond_yield p y2)) y) /\
  snd (cost f_ln f_powf o o' (CostFunction b npv p) y) = let? x := yield_npv f_ln f_powf o o' (yp_eval p) (yp_fwd p) (yp_past p) y b in Ret (ROk (f_powf (gsub x npv) (gof_Z 2))).
Proof. intros. split; reflexivity. Qed.
Lemma target_value : exists t, fn target_cost t /\ t <= 1.0000001 / 10 ^ 9.
Proof.
  assert (F : fn (gof_Z 1000000000 : f32) 1000000000) by (split; [reflexivity|cbn; unfold F2R; cbn -[IZR]; lra]).
  destruct (div_err (gof_Z 1) (gof_Z 1000000000) 1 1000000000 one_fn F ltac:(lra)) as (w & d & t & Fw & D & T & W). { apply two100_127. unfold two100. rewrite Rabs_pos_eq; lra. }
  exists w. split; [exact Fw|]. rewrite W. assert (TT : tiny <= / 10 ^ 30). { unfold tiny. change (-150)%Z with (Z.opp 150). rewrite bpow_opp. apply Rinv_le; [apply pow_lt; lra|]. rewrite pow_IZR. change (bpow radix2 150) with (IZR (2 ^ 150)). apply IZR_le. apply Z.leb_le. reflexivity. }
  apply Rabs_le_inv in D, T. unfold e24 in D. assert (P : / 10 ^ 30 <= / 10 ^ 18) by (apply Rinv_le; [apply pow_lt; lra|apply Rle_pow; [lra|lia]]). lra.
Qed.
(** a small square *)
Lemma small_root : forall v c, Rabs (c - v * v) <= v * v / 2 ^ 22 + / 2 ^ 99 -> c <= 1.0000001 / 10 ^ 9 -> Rabs v <= 3.17 / 10 ^ 5.
Proof.
  intros v c H L. assert (P22 : 2 ^ 22 = 4194304) by (rewrite pow_IZR; reflexivity). rewrite P22 in H. apply Rabs_le_inv in H. assert (P126 : / 2 ^ 99 <= / 10 ^ 29). { apply Rinv_le; [apply pow_lt; lra|]. rewrite !pow_IZR. apply IZR_le. apply Z.leb_le. reflexivity. }
  assert (V : v * v <= 1.00001 / 10 ^ 9). { assert (X : v * v * (1 - / 4194304) <= 1.0000001 / 10 ^ 9 + / 10 ^ 29) by lra. assert (/ 10 ^ 29 <= / 10 ^ 18) by (apply Rinv_le; [apply pow_lt; lra|apply Rle_pow; [lra|lia]]). lra. }
  apply Rnot_lt_le. intro B. assert (3.17 / 10 ^ 5 * (3.17 / 10 ^ 5) <= Rabs v * Rabs v) by (apply Rmult_le_compat; lra). rewrite <- Rabs_mult, Rabs_pos_eq in H0 by (apply Rle_0_sqr). lra.
Qed.
(** a yield whose cost reaches the target of the search reprices the bond *)
Theorem c209_repriced : forall f_ln f_powf p b npv y c m first last K, good_powf f_powf -> good_square f_powf -> terms f_ln (yp_eval p) (yp_fwd p) (yp_past p) b m first last -> usual_yield b (pricing_of b (yp_eval p)) first m K y ->
  costs f_ln f_powf iterates p b npv y c -> finite c -> gle c target_cost = true ->
  exists o o' x, iterates o /\ iterates o' /\ yield_npv f_ln f_powf o o' (yp_eval p) (yp_fwd p) (yp_past p) y b = Ret (ROk x) /\ finite x /\ Rabs (value x - value npv) <= 3.2 / 10 ^ 5 /\
    Rabs (price_at b (pricing_of b (yp_eval p)) m first last (per_period b y) - value npv) <= 3.2 / 10 ^ 5 + price_error b (pricing_of b (yp_eval p)) m first last K (per_period b y).
Proof.
  intros f_ln f_powf p b npv y c m first last K GP GS T U (o & o' & l & IO & IO' & C) FC L. destruct (priced_at f_ln f_powf o o' _ _ _ y b m first last K GP IO IO' T U) as (x & X & FX & E).
  exists o, o', x. split; [exact IO|]. split; [exact IO'|]. split; [exact X|]. split; [exact FX|].
  assert (Q : Rabs (value x - value npv) <= 3.2 / 10 ^ 5).
  { unfold cost, pricer_npv in C. cbn [ko_bond ko_npv ko_pricer yp_eval yp_yield yp_fwd yp_past set_bond_yield snd] in C. rewrite X in C. cbn [rbind] in C. apply ret_inj, rok_inj in C.
    destruct target_value as (t & [Ft Vt] & Bt). apply (proj1 (fin_le 24 128 _ _ _ _ (conj FC eq_refl) (conj Ft Vt))) in L. rewrite <- C in L, FC. destruct (GS _ FC) as [FD SQ]. destruct (QCholProofs.sub_inv _ _ FD) as (_ & _ & d & D & V). change (value (gsub x npv) = (value x - value npv) * (1 + d)) in V.
    pose proof (small_root _ _ SQ ltac:(unfold value; lra)) as R. rewrite V, Rabs_mult in R. apply Rabs_le_inv in D. unfold e24 in D. rewrite (Rabs_pos_eq (1 + d)) in R by lra. pose proof (Rabs_pos (value x - value npv)).
    assert (Rabs (value x - value npv) * (1 - / 16777216) <= Rabs (value x - value npv) * (1 + d)) by (apply Rmult_le_compat_l; lra). lra. }
  split; [exact Q|]. set (P := price_at _ _ _ _ _ _) in *. set (err := price_error _ _ _ _ _ _ _) in *. clearbody P err. apply Rabs_le_inv in E, Q. apply Rabs_le. lra.
Qed.
(** what find_bond_yield returns is the yield it began with, if nothing that it tried had a
    cost below infinity, or one of those it tried *)
Lemma best_in : forall tried kept, best tried kept = kept \/ In (best tried kept) tried.
Proof.
  induction tried as [|s l IH]; intro kept; [left; reflexivity|]. cbn [best]. destruct (IH (if better (snd s) (snd kept) then s else kept)) as [E|I]; [|right; right; exact I]. rewrite E. destruct (better _ _); [right; left; reflexivity|left; reflexivity].
Qed.
Lemma start_value : exists g, fn default_guess g /\ Rabs (g - 0.02) <= / 10 ^ 8.
Proof.
  assert (F : fn (gof_Z 50 : f32) 50) by (split; [reflexivity|cbn; unfold F2R; cbn -[IZR]; lra]).
  destruct (div_err (gof_Z 1) (gof_Z 50) 1 50 one_fn F ltac:(lra)) as (w & d & t & Fw & D & T & W). { apply two100_127. unfold two100. rewrite Rabs_pos_eq; lra. }
  exists w. split; [exact Fw|]. rewrite W. assert (TT : tiny <= / 10 ^ 30). { unfold tiny. change (-150)%Z with (Z.opp 150). rewrite bpow_opp. apply Rinv_le; [apply pow_lt; lra|]. rewrite pow_IZR. change (bpow radix2 150) with (IZR (2 ^ 150)). apply IZR_le. apply Z.leb_le. reflexivity. }
  apply Rabs_le_inv in D, T. unfold e24 in D. assert (P : / 10 ^ 30 <= / 10 ^ 18) by (apply Rinv_le; [apply pow_lt; lra|apply Rle_pow; [lra|lia]]). apply Rabs_le. lra.
Qed.
Theorem c209_tried : forall f_ln f_powf p b npv guess y, finds f_ln f_powf iterates p b npv guess (ROk y) -> guess = Some y \/ (guess = None /\ finite y /\ Rabs (value y - 0.02) <= / 10 ^ 8) \/ exists c, costs f_ln f_powf iterates p b npv y c.
Proof.
  intros f_ln f_powf p b npv guess y F. inversion F as [tried first L C T E|]. subst. destruct (best_in tried first) as [Q|I].
  - assert (QF : fst (best tried first) = fst first) by (rewrite Q; reflexivity). rewrite QF. unfold first. cbn [fst]. destruct guess as [g|]; [left; reflexivity|right; left]. split; [reflexivity|]. destruct start_value as (g & [Fg Vg] & Q'). split; [exact Fg|]. unfold value. rewrite Vg. exact Q'.
  - right. right. rewrite List.Forall_forall in C. exists (snd (best tried first)). exact (C _ I).
Qed.
(** costs are compared as numbers, the infinities at the ends *)
Lemma lt_le : forall a b c : f32, glt a b = true -> gle b c = true -> glt a c = true.
Proof.
  intros a b c H K. destruct (is_finite a) eqn:FA, (is_finite b) eqn:FB, (is_finite c) eqn:FC.
  { apply (proj2 (fin_lt 24 128 _ _ _ _ (conj FA eq_refl) (conj FC eq_refl))). apply (proj1 (fin_lt 24 128 _ _ _ _ (conj FA eq_refl) (conj FB eq_refl))) in H. apply (proj1 (fin_le 24 128 _ _ _ _ (conj FB eq_refl) (conj FC eq_refl))) in K. lra. }
  all: destruct a as [sa|[|]| |sa ma ea Ha], b as [sb|[|]| |sb mb eb Hb], c as [sc|[|]| |sc mc ec Hc]; cbn in *; try discriminate; try reflexivity; destruct sa; try discriminate; try reflexivity; destruct sb; try discriminate; try reflexivity; destruct sc; try discriminate; reflexivity.
Qed.
Lemma le_le : forall a b c : f32, gle a b = true -> gle b c = true -> gle a c = true.
Proof.
  intros a b c H K. destruct (is_finite a) eqn:FA, (is_finite b) eqn:FB, (is_finite c) eqn:FC.
  { apply (proj2 (fin_le 24 128 _ _ _ _ (conj FA eq_refl) (conj FC eq_refl))). apply (proj1 (fin_le 24 128 _ _ _ _ (conj FA eq_refl) (conj FB eq_refl))) in H. apply (proj1 (fin_le 24 128 _ _ _ _ (conj FB eq_refl) (conj FC eq_refl))) in K. lra. }
  all: destruct a as [sa|[|]| |sa ma ea Ha], b as [sb|[|]| |sb mb eb Hb], c as [sc|[|]| |sc mc ec Hc]; cbn in *; try discriminate; try reflexivity; destruct sa; try discriminate; try reflexivity; destruct sb; try discriminate; try reflexivity; destruct sc; try discriminate; reflexivity.
Qed.
Lemma le_self : forall a : f32, is_nan a = false -> gle a a = true.
Proof.
  intros a N. destruct (is_finite a) eqn:FA; [apply (proj2 (fin_le 24 128 _ _ _ _ (conj FA eq_refl) (conj FA eq_refl))); apply Rle_refl|]. destruct a as [s|[|]| |s m e H]; try discriminate; reflexivity.
Qed.
Lemma lt_le_weak : forall a b : f32, glt a b = true -> gle a b = true.
Proof.
  intros a b H. destruct (is_finite a) eqn:FA, (is_finite b) eqn:FB.
  { apply (proj2 (fin_le 24 128 _ _ _ _ (conj FA eq_refl) (conj FB eq_refl))). apply (proj1 (fin_lt 24 128 _ _ _ _ (conj FA eq_refl) (conj FB eq_refl))) in H. lra. }
  all: destruct a as [sa|[|]| |sa ma ea Ha], b as [sb|[|]| |sb mb eb Hb]; cbn in *; try discriminate; try reflexivity; destruct sa; try discriminate; try reflexivity; destruct sb; try discriminate; reflexivity.
Qed.
Lemma le_number : forall a b : f32, gle a b = true -> is_nan a = false. Proof. intros a b H. destruct a; try reflexivity. discriminate H. Qed.
Lemma best_least : forall tried kept, is_nan (snd kept) = false -> gle (snd (best tried kept)) (snd kept) = true /\ Forall (fun s => glt (snd s) (snd (best tried kept)) = false) tried.
Proof.
  induction tried as [|s l IH]; intros kept N; cbn [best]; [split; [apply le_self; exact N|constructor]|]. destruct (better (snd s) (snd kept)) eqn:B.
  - assert (SK : gle (snd s) (snd kept) = true).
    { unfold better in B. apply orb_true_iff in B. destruct B as [B|B]; [apply lt_le_weak; exact B|]. apply andb_true_iff in B. destruct B as [B1 B3]. apply andb_true_iff in B1. destruct B1 as [B1 B2]. destruct (snd s) as [x|[|]| |x m e W], (snd kept) as [x'|[|]| |x' m' e' W']; try discriminate; reflexivity. }
    destruct (IH s (le_number _ _ SK)) as [A C]. split; [exact (le_le _ _ _ A SK)|]. constructor; [|exact C]. destruct (glt (snd s) (snd (best l s))) eqn:G; [|reflexivity]. pose proof (lt_le _ _ _ G A) as Q. exfalso.
    destruct (is_finite (snd s)) eqn:F; [apply (proj1 (fin_lt 24 128 _ _ _ _ (conj F eq_refl) (conj F eq_refl))) in Q; lra|]. destruct (snd s) as [x|[|]| |x m e W]; discriminate.
  - destruct (IH kept N) as [A C]. split; [exact A|]. constructor; [|exact C]. destruct (glt (snd s) (snd (best l kept))) eqn:G; [|reflexivity]. pose proof (lt_le _ _ _ G A) as Q. unfold better in B. rewrite Q in B. discriminate B.
Qed.
(** of at most thirty parameters that were priced none costs less than the one returned, or
    all cost infinity or nothing that is a number and the first is returned *)
Theorem c209_least : forall f_ln f_powf p b npv guess y, finds f_ln f_powf iterates p b npv guess (ROk y) -> exists tried, (List.length tried <= 30)%nat /\ Forall (fun s => costs f_ln f_powf iterates p b npv (fst s) (snd s)) tried /\
  ((exists c, In (y, c) tried /\ is_nan c = false /\ Forall (fun s => glt (snd s) c = false) tried) \/ ((guess = Some y \/ guess = None /\ finite y /\ Rabs (value y - 0.02) <= / 10 ^ 8) /\ Forall (fun s => is_finite (snd s) = false /\ glt (snd s) (B754_infinity false) = false) tried)).
Proof.
  intros f_ln f_powf p b npv guess y F. inversion F as [tried first L C T E|]. subst. exists tried. split; [exact L|]. split; [exact C|]. destruct (best_least tried first eq_refl) as [A B]. destruct (best_in tried first) as [Q|I].
  - right. split; [rewrite Q; unfold first; cbn [fst]; destruct guess as [g|]; [left; reflexivity|right; split; [reflexivity|]]; destruct start_value as (g & [Fg Vg] & Q'); split; [exact Fg|]; unfold value; rewrite Vg; exact Q'|]. rewrite Q in B. unfold first in B. cbn [snd] in B. apply List.Forall_forall. intros s Is. rewrite List.Forall_forall in B. specialize (B s Is). split; [|exact B]. destruct (snd s) as [x|[|]| |x m e W]; try reflexivity; cbn in B; discriminate B.
  - left. exists (snd (best tried first)). split; [rewrite <- surjective_pairing; exact I|]. split; [exact (le_number _ _ A)|exact B].
Qed.
(** the gradient: the difference of the costs half a ten thousandth up and down, for a
    change of a ten thousandth *)
Lemma step_value : exists h hh, fn step_h h /\ Rabs (h - 5 / 10 ^ 5) <= 5 / 10 ^ 5 / 2 ^ 23 /\ fn (gmul (gof_Z 2) step_h) hh /\ Rabs (hh - 1 / 10 ^ 4) <= 1 / 10 ^ 4 / 2 ^ 22.
Proof.
  assert (F : fn (gof_Z 20000 : f32) 20000) by (split; [reflexivity|cbn; unfold F2R; cbn -[IZR]; lra]). assert (F2 : fn (gof_Z 2 : f32) 2) by (split; [reflexivity|cbn; unfold F2R; cbn -[IZR]; lra]).
  assert (TT : tiny <= / 10 ^ 30). { unfold tiny. change (-150)%Z with (Z.opp 150). rewrite bpow_opp. apply Rinv_le; [apply pow_lt; lra|]. rewrite pow_IZR. change (bpow radix2 150) with (IZR (2 ^ 150)). apply IZR_le. apply Z.leb_le. reflexivity. }
  assert (P : / 10 ^ 30 <= / 10 ^ 18) by (apply Rinv_le; [apply pow_lt; lra|apply Rle_pow; [lra|lia]]). assert (P23 : 2 ^ 23 = 8388608) by (rewrite pow_IZR; reflexivity). assert (P22 : 2 ^ 22 = 4194304) by (rewrite pow_IZR; reflexivity). rewrite P23, P22.
  destruct (div_err (gof_Z 1) (gof_Z 20000) 1 20000 one_fn F ltac:(lra)) as (h & d & t & Fh & D & T & W). { apply two100_127. unfold two100. rewrite Rabs_pos_eq; lra. } fold step_h in Fh. apply Rabs_le_inv in D, T. unfold e24 in D.
  destruct (mul_err _ _ _ _ F2 Fh) as (hh & d' & t' & Fhh & D' & T' & W'). { apply two100_127. unfold two100. rewrite Rabs_pos_eq; lra. } apply Rabs_le_inv in D', T'. unfold e24 in D'.
  assert (HB : Rabs (h - 5 / 10 ^ 5) <= 5 / 10 ^ 5 / 8388608) by (apply Rabs_le; lra). exists h, hh. split; [exact Fh|]. split; [exact HB|]. split; [exact Fhh|]. apply Rabs_le_inv in HB.
  assert (HD : Rabs (h * d') <= 5.01 / 10 ^ 5 * / 16777216) by (rewrite Rabs_mult; apply Rmult_le_compat; try apply Rabs_pos; apply Rabs_le; lra). apply Rabs_le_inv in HD. replace (2 * h * (1 + d') + t') with (2 * h + 2 * (h * d') + t') in W' by ring. apply Rabs_le. lra.
Qed.
Theorem c209_gradient : forall f_ln f_powf p b npv y y0 o1 o2 o3 o4 g, iterates o1 -> iterates o2 -> iterates o3 -> iterates o4 -> snd (gradient f_ln f_powf o1 o2 o3 o4 (CostFunction b npv (set_bond_yield p y0)) y) = Ret (ROk g) ->
  exists up down u d, costs f_ln f_powf iterates p b npv up u /\ costs f_ln f_powf iterates p b npv down d /\
    (finite y -> Rabs (value y) <= 1 -> finite up /\ finite down /\ Rabs (value up - (value y + 5 / 10 ^ 5)) <= / 2 ^ 23 /\ Rabs (value down - (value y - 5 / 10 ^ 5)) <= / 2 ^ 23) /\
    (finite g -> finite u /\ finite d /\ Rabs (value g - (value u - value d) * 10 ^ 4) <= Rabs (value u - value d) * 10 ^ 4 / 2 ^ 21 + / 2 ^ 149).
Proof.
  intros f_ln f_powf p b npv y y0 o1 o2 o3 o4 g I1 I2 I3 I4 H. unfold gradient in H. set (k0 := CostFunction b npv (set_bond_yield p y0)) in H. destruct (cost f_ln f_powf o1 o2 k0 (gadd y step_h)) as [k1 up] eqn:CU. destruct up as [[u|]| |]; try discriminate H.
  destruct (cost f_ln f_powf o3 o4 k1 (gsub y step_h)) as [k2 down] eqn:CD. destruct down as [[d|]| |]; try discriminate H. cbn [snd rbind] in H. apply ret_inj, rok_inj in H. subst g.
  exists (gadd y step_h), (gsub y step_h), u, d. split; [exists o1, o2, y0; split; [exact I1|split; [exact I2|fold k0; rewrite CU; reflexivity]]|]. split.
  { exists o3, o4, (gadd y step_h). split; [exact I3|]. split; [exact I4|]. assert (K : k1 = CostFunction b npv (set_bond_yield p (gadd y step_h))) by (apply (f_equal fst) in CU; exact (eq_sym CU)). rewrite <- K, CD. reflexivity. }
  destruct step_value as (h & hh & Fh & HB & [Fhh Vhh] & HHB). assert (P23 : 2 ^ 23 = 8388608) by (rewrite pow_IZR; reflexivity). assert (P22 : 2 ^ 22 = 4194304) by (rewrite pow_IZR; reflexivity). assert (P21 : 2 ^ 21 = 2097152) by (rewrite pow_IZR; reflexivity). rewrite P23, P22 in *. rewrite P21. apply Rabs_le_inv in HB, HHB. split.
  - intros Fy By. apply Rabs_le_inv in By.
    assert (N : forall z v, fn z v -> forall q dd, v = q * (1 + dd) -> Rabs dd <= e24 -> Rabs q <= 1.001 -> finite z /\ Rabs (value z - q) <= 1.001 / 16777216).
    { intros z v [Fz Vz] q dd E D Q. split; [exact Fz|]. unfold value. rewrite Vz, E. replace (q * (1 + dd) - q) with (q * dd) by ring. rewrite Rabs_mult. unfold e24 in D. apply Rle_trans with (1.001 * / 16777216); [apply Rmult_le_compat; auto using Rabs_pos|lra]. }
    destruct (add_err y step_h _ _ (conj Fy eq_refl) Fh) as (v & dv & Fv & Dv & Ev). { apply two100_127. unfold two100. fold (value y). apply Rabs_le. lra. }
    destruct (sub_err y step_h _ _ (conj Fy eq_refl) Fh) as (w & dw & Fw & Dw & Ew). { apply two100_127. unfold two100. fold (value y). apply Rabs_le. lra. } fold (value y) in Ev, Ew.
    destruct (N _ _ Fv _ _ Ev Dv) as [A1 A2]; [apply Rabs_le; lra|]. destruct (N _ _ Fw _ _ Ew Dw) as [B1 B2]; [apply Rabs_le; lra|]. split; [exact A1|]. split; [exact B1|]. apply Rabs_le_inv in A2, B2. split; apply Rabs_le; lra.
  - intro FG. assert (N0 : B2R (gmul (gof_Z 2) step_h : f32) <> 0) by (rewrite Vhh; lra). destruct (QCholProofs.div_inv _ _ Fhh N0 FG) as (FS & d1 & t1 & D1 & T1 & V1). destruct (QCholProofs.sub_inv _ _ FS) as (Fu & Fd & d2 & D2 & V2). split; [exact Fu|]. split; [exact Fd|].
    unfold value at 1. rewrite V1, V2, Vhh. fold (value u) (value d). set (z := value u - value d). assert (HI : exists e, / hh = 10 ^ 4 * (1 + e) /\ Rabs e <= 1.1 / 4194304).
    { exists (/ hh * / 10 ^ 4 - 1). split; [field; lra|]. assert (Q : / hh * / 10 ^ 4 - 1 = (1 / 10 ^ 4 - hh) * / hh) by (field; lra). rewrite Q, Rabs_mult. assert (0 < hh) by lra. rewrite (Rabs_pos_eq (/ hh)) by (left; apply Rinv_0_lt_compat; lra).
      apply Rle_trans with (1 / 10 ^ 4 / 4194304 * (/ (1 / 10 ^ 4 * 0.95))); [|lra]. apply Rmult_le_compat; [apply Rabs_pos|left; apply Rinv_0_lt_compat; lra|apply Rabs_le; lra|apply Rinv_le; lra]. }
    destruct HI as (e & HE & EB). unfold Rdiv at 1. rewrite HE. replace (z * (1 + d2) * (10 ^ 4 * (1 + e)) * (1 + d1) + t1 - z * 10 ^ 4) with (z * 10 ^ 4 * ((1 + d2) * (1 + e) * (1 + d1) - 1) + t1) by ring.
    apply Rle_trans with (1 := Rabs_triang _ _). assert (TT : tiny <= / 2 ^ 149). { unfold tiny. change (-150)%Z with (Z.opp 150). rewrite bpow_opp. apply Rinv_le; [apply pow_lt; lra|]. rewrite pow_IZR. change (bpow radix2 150) with (IZR (2 ^ 150)). apply IZR_le. apply Z.leb_le. reflexivity. }
    apply Rplus_le_compat; [|lra]. rewrite !Rabs_mult, (Rabs_pos_eq (10 ^ 4)) by lra. unfold Rdiv. apply Rmult_le_compat_l; [apply Rmult_le_pos; [apply Rabs_pos|lra]|].
    replace ((1 + d2) * (1 + e) * (1 + d1) - 1) with (d2 * (1 + e) * (1 + d1) + (e * (1 + d1) + d1)) by ring. apply Rabs_le_inv in EB. unfold e24 in *. apply Rabs_le_inv in D1.
    assert (X1 : Rabs (d2 * (1 + e) * (1 + d1)) <= / 16777216 * 1.001 * 1.001) by (rewrite !Rabs_mult; apply Rmult_le_compat; try apply Rabs_pos; [apply Rmult_le_pos; apply Rabs_pos|apply Rmult_le_compat; try apply Rabs_pos; [exact D2|apply Rabs_le; lra]|apply Rabs_le; lra]).
    assert (X2 : Rabs (e * (1 + d1)) <= 1.1 / 4194304 * 1.001) by (rewrite Rabs_mult; apply Rmult_le_compat; try apply Rabs_pos; apply Rabs_le; lra).
    pose proof (Rabs_triang (d2 * (1 + e) * (1 + d1)) (e * (1 + d1) + d1)). pose proof (Rabs_triang (e * (1 + d1)) d1). assert (Rabs d1 <= / 16777216) by (apply Rabs_le; lra). lra.
Qed.

(** ** C210: the yield is determined *)
(** a factor falls as fast as its time says *)
Lemma factor_falls : forall b1 b2 e, 0 < b1 -> b1 <= b2 -> 0 <= e -> / Rpower b2 e * e * ((b2 - b1) / b2) <= / Rpower b1 e - / Rpower b2 e.
Proof.
  intros b1 b2 e B1 B2 E. unfold Rpower. rewrite <- !exp_Ropp. set (u := - (e * ln b1)). set (v := - (e * ln b2)). assert (X : exp u = exp v * exp (u - v)) by (rewrite <- exp_plus; f_equal; ring). rewrite X.
  assert (Q : 1 + (u - v) <= exp (u - v)) by apply exp_ineq1_le.
  assert (W : e * ((b2 - b1) / b2) <= u - v).
  { unfold u, v. replace (- (e * ln b1) - - (e * ln b2)) with (e * (ln b2 - ln b1)) by ring. apply Rmult_le_compat_l; [exact E|]. assert (P : 0 < b1 / b2) by (apply Rdiv_lt_0_compat; lra).
    assert (LL : ln (b1 / b2) = ln b1 - ln b2) by (unfold Rdiv; rewrite ln_mult, ln_Rinv by (try apply Rinv_0_lt_compat; lra); ring). pose proof (exp_ineq1_le (ln (b1 / b2))) as Z. rewrite exp_ln in Z by exact P. rewrite LL in Z. replace ((b2 - b1) / b2) with (1 - b1 / b2) by (field; lra). lra. }
  rewrite Rmult_assoc. replace (exp v * exp (u - v) - exp v) with (exp v * (exp (u - v) - 1)) by ring. apply Rmult_le_compat_l; [left; apply exp_pos|lra].
Qed.

Lemma rest_range : forall pricing b m first last, first_after pricing m first -> (od_day last <= od_day pricing)%Z -> last_until pricing b last -> 0 <= rest pricing first last <= 1.
Proof.
  intros pricing b m first last FA LP _. assert (D : (od_day pricing < od_day first)%Z).
  { destruct FA as [I _]. apply in_map_iff in I. destruct I as (p & <- & P). unfold future in P. apply filter_In in P. destruct P as [_ P]. apply Z.ltb_lt in P. exact P. }
  unfold rest. set (d := (od_day first - od_day pricing)%Z). set (k := (od_day first - od_day last)%Z). assert (0 < IZR d) by (apply IZR_lt; lia). assert (IZR d <= IZR k) by (apply IZR_le; lia).
  split; [apply Rmult_le_pos; [lra|left; apply Rinv_0_lt_compat; lra]|]. apply Rmult_le_reg_r with (IZR k); [lra|]. unfold Rdiv. rewrite Rmult_assoc, Rinv_l by lra. lra.
Qed.
Lemma factor_periods : forall b first base d e, periods_to (bd_cal b) (bd_freq b) first d e -> bd_freq b <> NoFrequency -> periods b first d = e /\ 0 <= e /\ yield_factor (bd_cal b) (bd_freq b) first base d = / Rpower base (periods b first d).
Proof.
  intros b first base d e (t & E & F & V & ->) NF. unfold periods, yield_factor. rewrite E. split; [reflexivity|]. split; [|reflexivity]. destruct (freq_pos _ NF) as [_ BF]. assert (0 <= IZR (freq_number (bd_freq b))) by (apply IZR_le; lia).
  apply Rmult_le_pos; [|assumption]. destruct V as [->|V]; [lra|]. assert (0 < / 2 ^ 20) by (apply Rinv_0_lt_compat, pow_lt; lra). lra.
Qed.
Lemma sum_le : forall f g l, (forall p, In p l -> f p <= g p) -> sum_over f l <= sum_over g l.
Proof. intros f g l. induction l as [|p l IH]; intro H; cbn [sum_over fold_right]; [lra|]. pose proof (H p (or_introl eq_refl)). assert (sum_over f l <= sum_over g l) by (apply IH; intros; apply H; right; assumption). unfold sum_over in *. lra. Qed.
Lemma sum_scaled : forall f k l, sum_over (fun p => f p * k) l = sum_over f l * k.
Proof. intros f k l. induction l as [|p l IH]; cbn [sum_over fold_right]; [lra|]. unfold sum_over in *. rewrite IH. lra. Qed.
Lemma sum_minus : forall f g l, sum_over (fun p => f p - g p) l = sum_over f l - sum_over g l.
Proof. intros f g l. induction l as [|p l IH]; cbn [sum_over fold_right]; [lra|]. unfold sum_over in *. rewrite IH. lra. Qed.
(** the price falls when the yield rises, by the slope at the higher yield at least *)
Theorem c210_falls : forall f_ln eval fwd past b m first last K ya yb, let pricing := pricing_of b eval in terms f_ln eval fwd past b m first last -> usual_yield b pricing first m K ya -> usual_yield b pricing first m K yb ->
  Forall (fun p => 0 <= value (snd p)) (future pricing m) -> let y1 := per_period b ya in let y2 := per_period b yb in y1 <= y2 ->
  0 <= slope b pricing m first last y2 /\ slope b pricing m first last y2 * (y2 - y1) <= price_at b pricing m first last y1 - price_at b pricing m first last y2.
Proof.
  intros f_ln eval fwd past b m first last K ya yb pricing (C & FA & LU & LP & KL & NF & N) (Fa & Ya & Ka & Ga) (Fb & Yb & Kb & Gb) PO y1 y2 LE. fold pricing in FA, LU, LP. fold y1 in Ya, Ga. fold y2 in Yb, Gb.
  pose proof (rest_range _ _ _ _ _ FA LP LU) as R01. set (r := rest pricing first last) in *. apply Rabs_le_inv in Ya, Yb.
  assert (RY : forall y, - / 2 <= y <= / 2 -> - / 2 <= y * r <= / 2). { intros y Y. apply Rabs_le_inv. rewrite Rabs_mult, (Rabs_pos_eq r) by lra. apply Rle_trans with (/ 2 * 1); [|lra]. apply Rmult_le_compat; try lra; [apply Rabs_pos|apply Rabs_le; exact Y]. }
  pose proof (RY y1 Ya) as R1. pose proof (RY y2 Yb) as R2. set (g1 := 1 + y1 * r) in *. set (g2 := 1 + y2 * r) in *. assert (G12 : g2 - g1 = (y2 - y1) * r) by (unfold g1, g2; ring). assert (GD : 0 <= (y2 - y1) * r) by (apply Rmult_le_pos; lra).
  assert (H1 : / 2 <= g1) by (unfold g1; lra). assert (H2 : / 2 <= g2) by (unfold g2; lra).
  unfold slope, price_at. fold r g1 g2. set (l := future pricing m) in *. cbn zeta.
  set (F1 := yield_factor (bd_cal b) (bd_freq b) first (1 + y1)). set (F2 := yield_factor (bd_cal b) (bd_freq b) first (1 + y2)).
  assert (EACH : forall p, In p l -> 0 <= value (snd p) /\ 0 <= periods b first (fst p) /\ 0 < F2 (fst p) /\ F2 (fst p) * periods b first (fst p) * ((y2 - y1) / (1 + y2)) <= F1 (fst p) - F2 (fst p)).
  { intros p I. rewrite List.Forall_forall in PO, Gb. pose proof (PO p I) as P0. unfold l, future in I. apply filter_In in I. destruct I as [I L]. apply Z.ltb_lt in L. destruct (Gb p I) as (_ & _ & Q). destruct (Q L) as (e & PT & _). split; [exact P0|].
    destruct (factor_periods b first (1 + y2) _ e PT NF) as (E & E0 & E2). destruct (factor_periods b first (1 + y1) _ e PT NF) as (_ & _ & E1). unfold F1, F2. rewrite E1, E2, E. split; [exact E0|]. split; [apply Rinv_0_lt_compat; apply exp_pos|].
    pose proof (factor_falls (1 + y1) (1 + y2) e ltac:(lra) ltac:(lra) E0) as FF. replace (1 + y2 - (1 + y1)) with (y2 - y1) in FF by ring. exact FF. }
  set (S1 := present_value F1 l). set (S2 := present_value F2 l). set (D := sum_over (fun p => value (snd p) * F2 (fst p) * periods b first (fst p)) l).
  assert (D0 : 0 <= D). { apply sum_nonneg. intros p I. destruct (EACH p I) as (A & B & E & _). apply Rmult_le_pos; [apply Rmult_le_pos; lra|exact B]. }
  assert (S0 : 0 <= S2). { apply sum_nonneg. intros p I. destruct (EACH p I) as (A & B & E & _). apply Rmult_le_pos; lra. }
  assert (SD : D * ((y2 - y1) / (1 + y2)) <= S1 - S2).
  { unfold D, S1, S2, present_value. rewrite <- sum_scaled, <- sum_minus. apply sum_le. intros p I. destruct (EACH p I) as (A & B & E & X). set (q := (y2 - y1) / (1 + y2)) in *. rewrite <- Rmult_minus_distr_l. replace (value (snd p) * F2 (fst p) * periods b first (fst p) * q) with (value (snd p) * (F2 (fst p) * periods b first (fst p) * q)) by ring. apply Rmult_le_compat_l; assumption. }
  assert (I1 : / g2 <= / g1) by (apply Rinv_le; lra). assert (I2 : 0 < / g2) by (apply Rinv_0_lt_compat; lra). assert (IB : 0 < / (1 + y2)) by (apply Rinv_0_lt_compat; lra).
  split.
  - apply Rplus_le_le_0_compat; unfold Rdiv; [apply Rmult_le_pos; [apply Rmult_le_pos|]; lra|]. rewrite Rinv_mult_distr by lra. apply Rmult_le_pos; [apply Rmult_le_pos; lra|apply Rmult_le_pos; lra].
  - assert (A : D * ((y2 - y1) / (1 + y2)) * / g2 <= (S1 - S2) * / g1).
    { assert (0 <= D * ((y2 - y1) / (1 + y2))) by (apply Rmult_le_pos; [exact D0|apply Rmult_le_pos; lra]). apply Rmult_le_compat; lra. }
    assert (B : S2 * ((y2 - y1) * r * (/ g2 * / g2)) <= S2 * (/ g1 - / g2)).
    { apply Rmult_le_compat_l; [exact S0|]. replace (/ g1 - / g2) with ((g2 - g1) * (/ g1 * / g2)) by (field; lra). rewrite G12. apply Rmult_le_compat_l; [exact GD|]. apply Rmult_le_compat_r; lra. }
    replace (S1 / g1 - S2 / g2) with ((S1 - S2) * / g1 + S2 * (/ g1 - / g2)) by (field; lra).
    replace ((D / (1 + y2) / g2 + S2 * r / (g2 * g2)) * (y2 - y1)) with (D * ((y2 - y1) / (1 + y2)) * / g2 + S2 * ((y2 - y1) * r * (/ g2 * / g2))) by (field; lra). lra.
Qed.
(** two yields that both price the bond within [eps] of the same amount are as close as
    the slope and the rounding let them be *)
Theorem c210_unique : forall f_ln f_powf o1 o1' o2 o2' eval fwd past b m first last K ya yb xa xb target eps, good_powf f_powf -> iterates o1 -> iterates o1' -> iterates o2 -> iterates o2' -> let pricing := pricing_of b eval in
  terms f_ln eval fwd past b m first last -> usual_yield b pricing first m K ya -> usual_yield b pricing first m K yb -> Forall (fun p => 0 <= value (snd p)) (future pricing m) ->
  let y1 := per_period b ya in let y2 := per_period b yb in y1 <= y2 ->
  yield_npv f_ln f_powf o1 o1' eval fwd past ya b = Ret (ROk xa) -> yield_npv f_ln f_powf o2 o2' eval fwd past yb b = Ret (ROk xb) -> Rabs (value xa - target) <= eps -> Rabs (value xb - target) <= eps ->
  slope b pricing m first last y2 * (y2 - y1) <= 2 * eps + price_error b pricing m first last K y1 + price_error b pricing m first last K y2.
Proof.
  intros f_ln f_powf o1 o1' o2 o2' eval fwd past b m first last K ya yb xa xb target eps GP I1 I1' I2 I2' pricing T Ua Ub PO y1 y2 LE Xa Xb Ea Eb.
  destruct (priced_at f_ln f_powf o1 o1' eval fwd past ya b m first last K GP I1 I1' T Ua) as (x1 & X1 & _ & Q1). destruct (priced_at f_ln f_powf o2 o2' eval fwd past yb b m first last K GP I2 I2' T Ub) as (x2 & X2 & _ & Q2).
  assert (x1 = xa) by (apply rok_inj, ret_inj; congruence). assert (x2 = xb) by (apply rok_inj, ret_inj; congruence). subst x1 x2. destruct (c210_falls f_ln eval fwd past b m first last K ya yb T Ua Ub PO LE) as [_ F]. fold pricing y1 y2 in F, Q1, Q2.
  set (P1 := price_at b pricing m first last y1) in *. set (P2 := price_at b pricing m first last y2) in *. set (e1 := price_error b pricing m first last K y1) in *. set (e2 := price_error b pricing m first last K y2) in *.
  clearbody P1 P2 e1 e2. apply Rabs_le_inv in Q1, Q2, Ea, Eb. lra.
Qed.

(** ** What meets the hypotheses: the bond of C151 at a yield of one eighth *)
Definition sq_powf (x e : f32) : f32 :=
  if geq e (gof_Z 2) then if is_finite x then if Rle_dec (value x * value x) (2 ^ 100) then if Rle_dec (/ 2 ^ 100) (value x * value x) then to_f32 (value x * value x) else gof_Z 0 else B754_infinity false else x else an_powf x e.
Lemma squares : forall e : f32, finite e -> geq e (gof_Z 2) = true -> value e = 2 /\ forall z, 0 < z -> Rpower z (value e) = z * z.
Proof.
  intros e F G. destruct (small_fin 2 ltac:(lia)) as [F2 R2]. unfold real_of in R2. apply (proj1 (fin_eq 24 128 _ _ _ _ (conj F eq_refl) (conj F2 R2))) in G. split; [exact G|]. intros z Z0. unfold value. rewrite G. replace 2 with (INR 2) by (cbn; lra). rewrite Rpower_pow by exact Z0. cbn [pow]. ring.
Qed.
Lemma p100 : 2 ^ 100 = 1267650600228229401496703205376. Proof. rewrite pow_IZR. reflexivity. Qed.
Lemma sq_powf_good : good_powf sq_powf.
Proof.
  destruct an_powf_good as [A B]. split.
  - intros x e Fx Fe H. unfold sq_powf. destruct (geq e (gof_Z 2)) eqn:G; [|exact (A x e Fx Fe H)]. destruct (squares e Fe G) as [V _]. destruct H as [H|H]; [|rewrite V in H; lra]. unfold finite in Fx. rewrite Fx, H, p100, Rmult_1_r. destruct (Rle_dec _ _) as [D|D]; [|lra]. destruct (Rle_dec _ _) as [D'|D']; [|lra]. exact to_f32_one.
  - intros x e Fx Fe X E R. unfold sq_powf. destruct (geq e (gof_Z 2)) eqn:G; [|exact (B x e Fx Fe X E R)]. destruct (squares e Fe G) as [V Q]. rewrite (Q (value x)) in * by lra. unfold finite in Fx. rewrite Fx. rewrite p41 in R. destruct (Rle_dec _ _) as [D|D]; rewrite p100 in D; [|lra]. destruct (Rle_dec _ _) as [D'|D']; rewrite p100 in D'; [|lra].
    apply to_f32_wide. rewrite p41. exact R.
Qed.
Lemma two_two : geq (gof_Z 2 : f32) (gof_Z 2) = true. Proof. reflexivity. Qed.
Lemma sq_powf_square : good_square sq_powf.
Proof.
  intros x. unfold sq_powf. rewrite two_two. intro F. destruct (is_finite x) eqn:Fx; [|unfold finite in F; congruence]. split; [exact Fx|]. pose proof (Rle_0_sqr (value x)) as Z0. unfold Rsqr in Z0.
  destruct (Rle_dec _ _) as [D|D]; [|discriminate F]. destruct (Rle_dec _ _) as [D'|D'].
  - set (z := value x * value x) in *. destruct (to_f32_close z) as [_ Q]. { rewrite Rabs_pos_eq by exact Z0. change (-100)%Z with (Z.opp 100). rewrite bpow_opp. change (bpow radix2 100) with (IZR (Z.pow_pos 2 100)). rewrite p100 in D, D'. split; [exact D'|]. apply Rle_trans with (1 := D). change (bpow radix2 126) with (IZR (Z.pow_pos 2 126)). apply IZR_le. apply Z.leb_le. reflexivity. }
    rewrite (Rabs_pos_eq z Z0) in Q. assert (0 < / 2 ^ 99) by (apply Rinv_0_lt_compat, pow_lt; lra). lra.
  - unfold value at 1. rewrite (proj2 zero_fn). apply Rnot_le_lt in D'. assert (P : / 2 ^ 100 <= / 2 ^ 99) by (apply Rinv_le; [apply pow_lt; lra|apply Rle_pow; [lra|lia]]). rewrite Rabs_minus_sym, Rminus_0_r, Rabs_pos_eq by exact Z0.
    assert (0 <= value x * value x / 2 ^ 22) by (apply Rmult_le_pos; [exact Z0|left; apply Rinv_0_lt_compat, pow_lt; lra]). lra.
Qed.
Definition ex_seeker : yield_pricer := YieldPricer ex_eval (gof_Z 0) None None.
Definition no_less (b : bond) : bool := match cashflows (fun x => x) b ex_eval (pricing_of b ex_eval) None None with Ret (ROk m) => forallb (fun p => is_finite (snd p) && gle (gof_Z 0) (snd p)) m | _ => false end.
Lemma ex_terms : exists m first last, terms (fun x => x) ex_eval None None ex_fixed m first last /\ usual_yield ex_fixed (pricing_of ex_fixed ex_eval) first m 2 eighth /\ length (future (pricing_of ex_fixed ex_eval) m) = 2%nat /\ Forall (fun p => 0 <= value (snd p)) (future (pricing_of ex_fixed ex_eval) m).
Proof.
  destruct c151_hypotheses_met as (m & first & last & _ & C & FA & LU & LP & KL & NF & Fy & Y & L & G). exists m, first, last. split; [do 6 (split; [assumption|]); rewrite L; lia|]. split; [split; [exact Fy|split; [exact Y|split; [lia|exact G]]]|]. split; [exact L|].
  assert (H : no_less ex_fixed = true) by (vm_compute; reflexivity). unfold no_less in H. rewrite C in H. rewrite forallb_forall in H. apply List.Forall_forall. intros p I. unfold future in I. apply filter_In in I. specialize (H p (proj1 I)). apply andb_true_iff in H. destruct H as [F Z].
  apply (proj1 (fin_le 24 128 _ _ _ _ zero_fn (conj F eq_refl))) in Z. exact Z.
Qed.
Lemma ex_price_least : forall f_powf o o', good_powf f_powf -> iterates o -> iterates o' -> exists x, yield_npv (fun x => x) f_powf o o' ex_eval None None eighth ex_fixed = Ret (ROk x) /\ finite x /\ - / 2 <= value x.
Proof.
  intros f_powf o o' GP IO IO'. destruct ex_terms as (m & first & last & T & U & L & PO). destruct (priced_at _ f_powf o o' _ _ _ eighth _ _ _ _ 2 GP IO IO' T U) as (x & X & FX & E). exists x. split; [exact X|]. split; [exact FX|].
  set (pricing := pricing_of ex_fixed ex_eval) in *. set (y := per_period ex_fixed eighth) in *. unfold price_error in E. rewrite L in E. cbn [INR] in E.
  assert (SZ : size_at ex_fixed pricing m first last y = price_at ex_fixed pricing m first last y). { unfold size_at, price_at. f_equal. unfold present_size, present_value, sum_over. clear -PO. induction PO as [|p l H PO IH]; [reflexivity|]. cbn [fold_right]. rewrite IH, Rabs_pos_eq by exact H. reflexivity. }
  assert (P0 : 0 <= price_at ex_fixed pricing m first last y).
  { unfold price_at. destruct T as (_ & FA & LU & LP & _). fold pricing in FA, LU, LP. pose proof (rest_range _ _ _ _ _ FA LP LU) as R. unfold y, per_period. change (freq_number (bd_freq ex_fixed)) with 2%Z. destruct eighth_value as (_ & V8 & _). rewrite V8.
    apply Rmult_le_pos; [|left; apply Rinv_0_lt_compat; lra]. apply sum_nonneg. intros p I. rewrite List.Forall_forall in PO. apply Rmult_le_pos; [exact (PO p I)|]. unfold yield_factor. destruct (year_fraction _ _ _ _) as [[t|]| |]; try lra. left. apply Rinv_0_lt_compat. apply exp_pos. }
  rewrite SZ in E. set (P := price_at _ _ _ _ _ _) in *. assert (T140 : / 2 ^ 140 <= / 2 ^ 10) by (apply Rinv_le; [apply pow_lt; lra|apply Rle_pow; [lra|lia]]). rewrite p24' in E. replace (2 ^ 10) with 1024 in T140 by (cbn; lra).
  set (z := / 2 ^ 140) in *. unfold Rdiv in E. fold z in E. clearbody P z. apply Rabs_le_inv in E. lra.
Qed.
Example c209_hypotheses_met : exists m first last c, good_powf sq_powf /\ good_square sq_powf /\ terms (fun x => x) ex_eval None None ex_fixed m first last /\ usual_yield ex_fixed (pricing_of ex_fixed ex_eval) first m 2 eighth /\ Forall (fun p => 0 <= value (snd p)) (future (pricing_of ex_fixed ex_eval) m) /\
  exists npv, costs (fun x => x) sq_powf iterates ex_seeker ex_fixed npv eighth c /\ finite c /\ gle c target_cost = true.
Proof.
  destruct ex_terms as (m & first & last & T & U & _ & PO). assert (ID : iterates (fun l : list (odt * f32) => l)) by (intro l; apply Permutation_refl). destruct (ex_price_least sq_powf _ _ sq_powf_good ID ID) as (x & X & FX & _).
  destruct (QCurveDisc.same_sub x x FX FX eq_refl) as [FD VD]. exists m, first, last, (gof_Z 0). split; [exact sq_powf_good|]. split; [exact sq_powf_square|]. split; [exact T|]. split; [exact U|]. split; [exact PO|]. exists x. split; [|split; reflexivity].
  exists (fun l => l), (fun l => l), (gof_Z 0). split; [exact ID|]. split; [exact ID|]. unfold cost, pricer_npv. cbn [ko_bond ko_npv ko_pricer yp_eval yp_yield yp_fwd yp_past set_bond_yield snd ex_seeker]. rewrite X. cbn [rbind]. f_equal. f_equal. unfold sq_powf. rewrite two_two. unfold finite in FD. rewrite FD, VD, Rmult_0_r, p100.
  destruct (Rle_dec _ _) as [D|D]; [|lra]. destruct (Rle_dec _ _) as [D'|D']; [lra|reflexivity].
Qed.
(** REFUTED: a yield may be returned that does not reprice the bond.  Nobody looks at the
    cost at which the search ended; here the price asked for is below zero *)
Theorem c209_not_refuted : forall f_powf, good_powf f_powf -> exists p b npv guess y x, finds (fun x => x) f_powf iterates p b npv guess (ROk y) /\ (exists o o', iterates o /\ iterates o' /\ yield_npv (fun x => x) f_powf o o' (yp_eval p) (yp_fwd p) (yp_past p) y b = Ret (ROk x)) /\ finite x /\ finite npv /\ / 2 <= value x - value npv.
Proof.
  intros f_powf GP. assert (ID : iterates (fun l : list (odt * f32) => l)) by (intro l; apply Permutation_refl). destruct (ex_price_least f_powf _ _ GP ID ID) as (x & X & FX & V). destruct one_fn as [F1 V1]. destruct (fin_neg 24 128 (gof_Z 1) _ (conj F1 V1)) as [FN VN].
  exists ex_seeker, ex_fixed, (gneg (gof_Z 1)), (Some eighth), eighth, x. split; [|split; [exists (fun l => l), (fun l => l); auto|split; [exact FX|split; [exact FN|unfold value at 2; rewrite VN; lra]]]].
  set (c := f_powf (gsub x (gneg (gof_Z 1))) (gof_Z 2)). pose proof (found (fun x => x) f_powf iterates ex_seeker ex_fixed (gneg (gof_Z 1)) (Some eighth) [(eighth, c)]) as Q. cbv zeta match in Q.
  assert (E : fst (best [(eighth, c)] (eighth, B754_infinity false)) = eighth) by (cbn [best fst snd]; destruct (better _ _); reflexivity). rewrite E in Q. apply Q; [cbn [length]; unfold max_iters; lia| |].
  - constructor; [|constructor]. exists (fun l => l), (fun l => l), (gof_Z 0). split; [exact ID|]. split; [exact ID|]. unfold cost, pricer_npv. cbn [ko_bond ko_npv ko_pricer yp_eval yp_yield yp_fwd yp_past set_bond_yield snd fst ex_seeker]. rewrite X. reflexivity.
  - intros n N. cbn [length] in N. assert (n = 0%nat) by lia. subst n. reflexivity.
Qed.
Example c210_hypotheses_met : exists m first last xa xb eps, terms (fun x => x) ex_eval None None ex_fixed m first last /\ usual_yield ex_fixed (pricing_of ex_fixed ex_eval) first m 2 sixteenth /\ usual_yield ex_fixed (pricing_of ex_fixed ex_eval) first m 2 eighth /\
  Forall (fun p => 0 <= value (snd p)) (future (pricing_of ex_fixed ex_eval) m) /\ per_period ex_fixed sixteenth < per_period ex_fixed eighth /\
  yield_npv (fun x => x) sq_powf (fun l => l) (fun l => l) ex_eval None None sixteenth ex_fixed = Ret (ROk xa) /\ yield_npv (fun x => x) sq_powf (fun l => l) (fun l => l) ex_eval None None eighth ex_fixed = Ret (ROk xb) /\ Rabs (value xa - value xb) <= eps /\ Rabs (value xb - value xb) <= eps.
Proof.
  destruct ex_terms as (m & first & last & T & U & _ & PO). assert (ID : iterates (fun l : list (odt * f32) => l)) by (intro l; apply Permutation_refl). destruct eighth_value as (F8 & V8 & F16 & V16). pose proof U as (_ & _ & _ & G).
  assert (NF : bd_freq ex_fixed <> NoFrequency) by discriminate. change (pricing_of ex_fixed ex_eval) with ex_eval in *.
  assert (U' : usual_yield ex_fixed ex_eval first m 2 sixteenth).
  { unfold per_period. split; [exact F16|]. unfold per_period. change (freq_number (bd_freq ex_fixed)) with 2%Z. rewrite V16. split; [rewrite Rabs_pos_eq; lra|]. split; [lia|]. apply List.Forall_forall. rewrite List.Forall_forall in G. intros p I. destruct (G p I) as (A & B & Q). split; [exact A|]. split; [exact B|]. intro L. destruct (Q L) as (e & PT & E & _). exists e. split; [exact PT|]. split; [exact E|].
    destruct (factor_periods ex_fixed first (1 + / 16) _ e PT NF) as (_ & E0 & _). cbn [INR] in E. pose proof (powers_grow (1 + / 16 / 2) e ltac:(lra) ltac:(lra)). rewrite p40. lra. }
  destruct (priced_at _ sq_powf _ _ _ _ _ sixteenth _ _ _ _ 2 sq_powf_good ID ID T U') as (xa & XA & _). destruct (priced_at _ sq_powf _ _ _ _ _ eighth _ _ _ _ 2 sq_powf_good ID ID T U) as (xb & XB & _).
  exists m, first, last, xa, xb, (Rabs (value xa - value xb)). split; [exact T|]. split; [exact U'|]. split; [exact U|]. split; [exact PO|]. split; [unfold per_period; change (freq_number (bd_freq ex_fixed)) with 2%Z; rewrite V8, V16; lra|]. split; [exact XA|]. split; [exact XB|]. split; [lra|]. rewrite (Rminus_diag_eq _ _ eq_refl), Rabs_R0. apply Rabs_pos.
Qed.

Print Assumptions c209_same.
Print Assumptions c209_repriced.
Print Assumptions c209_tried.
Print Assumptions c209_least.
Print Assumptions c209_gradient.
Print Assumptions c210_falls.
Print Assumptions c210_unique.
Print Assumptions c209_not_refuted.
