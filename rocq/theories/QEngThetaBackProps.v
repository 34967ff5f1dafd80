(** QEngThetaBackProps.v -- C192: what theta leaves of the market. *)
From Coq Require Import ZArith Arith Ascii String.
From Coq Require Import List Bool Lia Reals Lra.
From Flocq Require Import Core IEEE754.BinarySingleNaN.
From Verif Require Import Base FloatModel FloatFacts KrxModel QDateModel QYearModel QPeriodModel QPeriodSpec QFindModel QInterpModel QDivModel QDivSpec QDivProps QRollProps QCurveModel QMoneyModel QBondModel QFutModel QInstModel QInstProps QMatchProps QVolModel QEngModel QEngSpec QEngProofs QEngThetaProps.
Import ListNotations.
Open Scope Z_scope.

Lemma round_dates : forall cx s s' eval e U m m', theta_round cx s s' eval e U m m' -> w_date (mk_world m) = eval -> exists es, (es = [] \/ es = [e; eval]) /\ set_dates (mk_world m) es = Ret (mk_world m') /\ w_date (mk_world m') = eval /\
  mk_equity m' = mk_equity m /\ mk_dividend m' = mk_dividend m /\ mk_curve m' = mk_curve m /\ mk_vol m' = mk_vol m.
Proof.
  intros cx s s' eval e U m m' [[_ ->]|(later & years & (D1 & A1 & B1 & C1 & V1) & (D2 & A2 & B2 & C2 & V2) & _)] W; [exists []; repeat split; auto|]. exists [e; eval]. split; [right; reflexivity|]. cbn [set_dates]. rewrite D1. cbn [obind]. rewrite D2. cbn [obind]. split; [reflexivity|]. split; [exact (proj1 (c129_set_date _ _ _ D2))|]. repeat split; congruence.
Qed.
Lemma set_dates_app : forall es fs w w' w'', set_dates w es = Ret w' -> set_dates w' fs = Ret w'' -> set_dates w (es ++ fs) = Ret w''.
Proof.
  induction es as [|e es IH]; intros fs w w' w'' H G; cbn [set_dates app] in *; [assert (w' = w) by congruence; subst w'; exact G|]. destruct (set_date w e) as [w1| |]; cbn [obind] in *; try discriminate H. exact (IH fs w1 w' w'' H G).
Qed.
Lemma crossings_le : forall l es from, (crossings l from es <= List.length es * List.length l)%nat.
Proof.
  intros l es. induction es as [|e es IH]; intro from; [cbn; lia|]. cbn [crossings List.length]. specialize (IH e). assert (B : (List.length (between from e l) + List.length (between e from l) <= List.length l)%nat); [|lia].
  clear. unfold between. induction l as [|[d y] l IH]; [cbn; lia|]. cbn [List.filter fst List.length]. destruct ((instant from <? instant d)%Z && (instant d <=? instant e)%Z) eqn:A; destruct ((instant e <? instant d)%Z && (instant d <=? instant from)%Z) eqn:B; cbn [List.length]; try lia.
Qed.
Open Scope R_scope.
(** the date, the curves and the surfaces are as before, a price that is told of the
    date is within a relative error of four roundings, 2^-23, for each dividend of its
    table *)
Theorem c192_restored : forall cx s s', coded (cx_insts cx) -> runs (set_thetas cx) s s' -> let m := st_market s in let m' := st_market s' in
  w_date (mk_world m') = w_date (mk_world m) /\ mk_equity m' = mk_equity m /\ mk_dividend m' = mk_dividend m /\ mk_curve m' = mk_curve m /\ mk_vol m' = mk_vol m /\
  forall k p j v, nth_error (w_prices (mk_world m)) k = Some p -> In k (w_pobs (mk_world m)) -> mp_div p = Some j -> nth_error (w_dividends (mk_world m)) j = Some v -> ordinary (dividend_ratio v) (mp_value p) ->
    instant (mp_dt p) = instant (w_date (mk_world m)) -> (Z.of_nat (List.length (dividend_ratio v)) <= 1048576)%Z ->
    exists p', nth_error (w_prices (mk_world m')) k = Some p' /\ Rabs (B2R (mp_value p') - B2R (mp_value p)) <= 4 * INR (List.length (dividend_ratio v)) * / 2 ^ 23 * B2R (mp_value p).
Proof.
  intros cx s s' CI H m m'. destruct (c192_theta cx s s' CI H) as (d & _ & _ & _ & e & m1 & _ & _ & R1 & R2). fold m m' in R1, R2. set (eval := w_date (mk_world (st_market s))) in *. destruct (round_dates _ _ _ _ _ _ _ _ R1 eq_refl) as (es & ES & S1 & W1 & A1 & B1 & C1 & D1).
  destruct (round_dates _ _ _ _ _ _ _ _ R2 W1) as (fs & FS & S2 & W2 & A2 & B2 & C2 & D2). pose proof (set_dates_app _ _ _ _ _ S1 S2) as S3. do 5 (split; [congruence|]). intros k p j v Hp Hk Hd Hv O T L.
  assert (LAST : instant (last_date (mp_dt p) (es ++ fs)) = instant (mp_dt p)) by (destruct ES as [-> | ->]; destruct FS as [-> | ->]; cbn [app last_date last]; unfold last_date; cbn [last]; try reflexivity; symmetry; exact T).
  assert (LEN : (List.length (es ++ fs) <= 4)%nat) by (destruct ES as [-> | ->]; destruct FS as [-> | ->]; cbn; lia). pose proof (crossings_le (dividend_ratio v) (es ++ fs) (mp_dt p)) as CR. assert (CR' : (crossings (dividend_ratio v) (mp_dt p) (es ++ fs) <= 4 * List.length (dividend_ratio v))%nat) by nia.
  destruct (c129_dates _ _ _ _ _ _ _ S3 Hp Hk Hd Hv) as [Q _]. eexists. split; [exact Q|]. eapply Rle_trans; [apply (c128_round_trip (dividend_ratio v) p (es ++ fs) O); [lia|exact LAST]|].
  destruct O as (_ & _ & _ & O1 & _). assert (0 < / 2 ^ 50) by (apply Rinv_0_lt_compat; apply pow_lt; lra). assert (0 < / 2 ^ 23) by (apply Rinv_0_lt_compat; apply pow_lt; lra). apply Rmult_le_compat_r; [lra|]. apply Rmult_le_compat_r; [lra|]. apply le_INR in CR'. rewrite mult_INR in CR'. cbn [INR] in CR'. lra.
Qed.
(** the world of C129 does: a price of 100 that follows the date, two dividends *)
Example c192_restored_met : exists p v, nth_error (w_prices example_world) 0 = Some p /\ In 0%nat (w_pobs example_world) /\ mp_div p = Some 0%nat /\ nth_error (w_dividends example_world) 0 = Some v /\ ordinary (dividend_ratio v) (mp_value p) /\ instant (mp_dt p) = instant (w_date example_world).
Proof.
  exists (MarketPrice hundred (noon 19850) (Some 0%nat)), example_dividend. split; [reflexivity|]. split; [left; reflexivity|]. split; [reflexivity|]. split; [reflexivity|]. split; [|reflexivity].
  assert (F : gdiv (gof_Z 50) hundred = half32) by (apply B2SF_inj; vm_compute; reflexivity). assert (V : dividend_ratio example_dividend = half_yearly) by (unfold dividend_ratio, example_dividend, half_yearly; cbn [dv_dates dv_yields map combine]; rewrite F; reflexivity). rewrite V. exact (proj1 c128_hypotheses_met).
Qed.

Print Assumptions c192_restored.
