(** QDecayProps.v -- C218: theta in the report. *)
From Coq Require Import ZArith Ascii String.
From Coq Require Import List Bool Lia Permutation.
From Flocq Require Import Core IEEE754.BinarySingleNaN.
From Verif Require Import Base FloatModel KrxModel QDateModel QYearModel QPeriodModel QInterpModel QDivModel QDivSpec QDivProps QRollProps QCurveModel QMoneyModel QBondModel QBondSpec QBondProofs QSwapModel QSwapProps QFutModel QInstModel QInstSpec QInstProps QMatchProps QVolModel QBondPriceProps QCurveProps QCurveExp QVolProps QEngModel QEngSpec QEngProofs QEngFrame QEngProps QEngDeltaProps QEngThetaProps QLoadModel QLoadSpec QLoadProofs QLoadProps QPricerProps QGenModel QGenProofs QGenProps QGroupProofs QGroupProps QWholeModel QWholeSpec QWholeProofs QWholeProps QDecaySpec QDecayProofs.
Import ListNotations.
Open Scope Z_scope.

Section Report.
Context (fo : formulas) (se : setup) (i : instrument) (c : calc).
Hypotheses (H : reported_by fo se i c) (NP : cf_npv (se_config se) = true) (TH : cf_theta (se_config se) = true).
(** what theta is calculated over: [upto] is the date moved to, [es] the dates an earlier
    round has been through *)
Definition theta_dates (d upto : odt) (es : list odt) : Prop :=
  (exists x, maturity i = Some x /\ instant (se_eval se) < instant upto <= instant x /\ instant x <= instant d /\ es = []) \/
  ((forall x, maturity i = Some x -> instant d < instant x) /\ upto = d /\ (es = [] \/ exists e, es = [e; se_eval se] /\ instant (se_eval se) < instant e <= instant d)).
(** C218: the theta reported is the change of the price, by the formulas, from what the data
    have to that at the date moved to, and the cash until then, for a day *)
Theorem c218_view : ~ In (type_name i) ["Cash"; "Stock"]%string ->
  exists d upto es v v0 v' res base up years coupons listed flows,
    add_days (se_eval se) (cf_theta_day (se_config se)) = Ret d /\ theta_dates d upto es /\
    sees se i v /\ moved_through es v v0 /\ moved_to upto v0 v' /\
    fo_result fo v i = Ret (ROk res) /\ shows c i res /\ fo_npv fo v0 i = Ret (ROk base) /\ fo_npv fo v' i = Ret (ROk up) /\
    get_time_difference (se_eval se) upto = Ret years /\ (forall l, Permutation (coupons l) l) /\ expected_coupons coupons res = ROk listed /\ ca_cash c = Some listed /\ Permutation flows listed /\
    ca_theta c = Some (decay up base (paid (se_eval se) upto flows) (notional i) years).
Proof using H NP TH.
  intros NT. destruct H as (is & r & M & N & D & I & E). destruct (in_engine_cash _ se is r i M N I) as (sh & l & w & cx & s & s' & SH & CA & CP & L & C & W & R & E1 & G & F & P & K).
  destruct (c182_value cx (ld_market l) s s' W) with (i := i) as (x & fl & (p & Q & V) & EX & c' & X & U & A & B & LI); [rewrite G; exact N|rewrite G; exact K|rewrite F; exact NP|exact R|rewrite G; exact I|].
  destruct (theta_stage cx (ld_market l) s s' W) as (s1 & s2 & MK & R1 & KT & KC); [rewrite G; exact N|rewrite G; exact K|rewrite F; exact NP|rewrite F; exact TH|exact R|].
  assert (CD : coded (cx_insts cx)) by (apply coded_nodup; rewrite G; exact N). destruct (c192_theta cx s1 s2 CD R1) as (d & AD & _ & _ & e & m1 & FM & NM & N1 & N2). rewrite MK in *. rewrite F in AD.
  pose proof (date_read se sh is l L) as DT. rewrite DT in *. pose proof (loaded_watched se sh is l i w SH L D I C) as WA.
  destruct (with_instruments_ok _ _ _ W) as (_ & _ & _ & MA & _). rewrite G, DT in MA.
  assert (c' = c) by congruence. subst c'. rewrite P in Q. apply some_inj in Q. subst p. cbn [pricer_of pr_result pr_npv] in V.
  destruct (views_round _ _ _ _ _ _ _ _ w N1 WA) as (WA1 & es & ES & TE).
  assert (CN : counted cx i) by (split; [rewrite G; exact I|exact NT]).
  assert (PV : forall y z, priced cx y i z -> fo_npv fo (view_of y w) i = Ret (ROk z)). { intros y z (p & P2 & Y). rewrite P in P2. apply some_inj in P2. subst p. exact Y. }
  assert (FIN : forall un fs t, reported s1 i (fun c => ca_unit c = un /\ ca_cash c = Some fs) -> reported_theta s2 i t -> un = notional i /\ ca_cash c = Some fs /\ ca_theta c = Some t).
  { intros un fs t Y1 Y2. destruct (KC i un fs Y1) as (c1 & X1 & U1 & F1). assert (c1 = c) by congruence. subst c1. destruct (KT i t Y2) as (c2 & X2 & T2). assert (c2 = c) by congruence. subst c2. split; [congruence|]. split; [exact F1|exact T2]. }
  assert (NF : near cx d i \/ far cx d i).
  { destruct (maturity i) as [y|] eqn:MI; [|right; split; [exact CN|]; intros y Y; congruence]. destruct (Z.le_gt_cases (instant y) (instant d)); [left; split; [exact CN|eauto]|right; split; [exact CN|]]. intros z Y. assert (z = y) by congruence. subst z. lia. }
  destruct NF as [NF|NF].
  - destruct N1 as [[N1 _]|(later & years & D1 & D2 & Y & RD)]; [contradiction (N1 i NF)|]. destruct (RD i NF) as (npv & up & un & fs & P1 & P2 & P3 & P4). destruct (FIN _ _ _ P3 P4) as (-> & FC & FT).
    destruct (FM (ex_intro _ i NF)) as [(i0 & [[I0 _] _] & M0) LE]. destruct NF as [_ (y & MY & LY)].
    exists d, e, [], (view_of (ld_market l) w), (view_of (ld_market l) w), (view_of later w), x, npv, up, years, (cx_coupons cx), fs, (cx_cash cx fs). split; [exact AD|].
    split. { left. exists y. split; [exact MY|]. split; [|split; [exact LY|reflexivity]]. split; [rewrite G in I0; exact (MA i0 e I0 M0)|]. apply (LE i y); [split; [exact CN|eauto]|exact MY]. }
    split; [exact (sees_it se sh is l i w L D I C)|]. split; [reflexivity|]. split; [exact (view_moved w e _ later WA D1)|]. split; [exact V|]. split; [split; [exact U|split; [exact A|exact B]]|]. split; [exact (PV _ _ P1)|]. split; [exact (PV _ _ P2)|]. split; [exact Y|]. split; [exact CP|]. split; [congruence|]. split; [exact FC|]. split; [apply CA|exact FT].
  - destruct N2 as [[N2 _]|(later & years & D1 & D2 & Y & RD)]; [contradiction (N2 i NF)|]. destruct (RD i NF) as (npv & up & un & fs & P1 & P2 & P3 & P4). destruct (FIN _ _ _ P3 P4) as (-> & FC & FT).
    assert (EL : exists es', moved_through es' (view_of (ld_market l) w) (view_of m1 w) /\ (es' = [] \/ exists e, es' = [e; se_eval se] /\ instant (se_eval se) < instant e <= instant d)).
    { destruct (near_dec cx d) as [NR|NR].
      - exists es. split; [exact TE|]. destruct ES as [-> | ->]; [left; reflexivity|right]. exists e. split; [reflexivity|]. destruct (FM NR) as [(i0 & [[I0 _] (y & MY & LY)] & M0) LE]. rewrite G in I0. pose proof (MA i0 e I0 M0). assert (y = e) by congruence. subst y. lia.
      - exists []. split; [rewrite (NM NR); reflexivity|left; reflexivity]. }
    destruct EL as (es' & TE' & DS). destruct NF as [_ MF].
    exists d, d, es', (view_of (ld_market l) w), (view_of m1 w), (view_of later w), x, npv, up, years, (cx_coupons cx), fs, (cx_cash cx fs). split; [exact AD|].
    split; [right; split; [exact MF|split; [reflexivity|exact DS]]|]. split; [exact (sees_it se sh is l i w L D I C)|]. split; [exact TE'|]. split; [exact (view_moved w d m1 later WA1 D1)|]. split; [exact V|]. split; [split; [exact U|split; [exact A|exact B]]|]. split; [exact (PV _ _ P1)|]. split; [exact (PV _ _ P2)|]. split; [exact Y|]. split; [exact CP|]. split; [congruence|]. split; [exact FC|]. split; [apply CA|exact FT].
Qed.
(** cash and stock have none *)
Theorem c218_zero : In (type_name i) ["Cash"; "Stock"]%string -> ca_theta c = Some (gof_Z 0).
Proof using H NP TH.
  intros NT. destruct H as (is & r & M & N & D & I & E). destruct (in_engine_cash _ se is r i M N I) as (sh & l & w & cx & s & s' & SH & CA & CP & L & C & W & R & E1 & G & F & P & K).
  destruct (theta_stage cx (ld_market l) s s' W) as (s1 & s2 & MK & R1 & KT & KC); [rewrite G; exact N|rewrite G; exact K|rewrite F; exact NP|rewrite F; exact TH|exact R|].
  assert (CD : coded (cx_insts cx)) by (apply coded_nodup; rewrite G; exact N). destruct (c192_theta cx s1 s2 CD R1) as (d & _ & Z0 & _). destruct (KT i _ (Z0 i ltac:(rewrite G; exact I) NT)) as (c1 & X1 & T1). congruence.
Qed.
End Report.

(** the cash until the date moved to, and the change for a day *)
Definition theta_by (se : setup) (i : instrument) (c : calc) (upto : odt) (base up : f32) (listed : list (odt * f32)) : Prop :=
  exists years flows, get_time_difference (se_eval se) upto = Ret years /\ Permutation flows listed /\ ca_theta c = Some (decay up base (paid (se_eval se) upto flows) (notional i) years).
Lemma last_eval : forall se i d upto es, theta_dates se i d upto es -> last_date (se_eval se) es = se_eval se.
Proof. intros se i d upto es [(x & _ & _ & _ & ->)|(_ & _ & [-> |(e & -> & _)])]; reflexivity. Qed.

Section Library.
Context (f_ln f_cdf : f32 -> f32) (de : details) (su : sums) (se : setup) (i : instrument) (c : calc).
Hypotheses (H : reported_by (library f_ln f_cdf de su) se i c) (NP : cf_npv (se_config se) = true) (TH : cf_theta (se_config se) = true).
Let eval := se_eval se.
Lemma no_flows : forall x order l, (forall l, Permutation (order l) l) -> expected_coupons order (result_of_npv x) = ROk l -> l = [].
Proof using. intros x order l P E. unfold expected_coupons, result_of_npv in E. cbn [nr_amounts nr_probs] in E. rewrite (Permutation_nil (Permutation_sym (P []))) in E. cbn in E. apply rok_inj in E. symmetry. exact E. Qed.

(** futures: nothing but the date and the stock changes *)
Theorem c218_futures : forall u us uc, in_kind i = KFutures (u :: us) uc ->
  exists d upto es coll borrow s dv s0 t0 dv0 s1 t1 dv1 mid base up years,
  add_days eval (cf_theta_day (se_config se)) = Ret d /\ theta_dates se i d upto es /\
  curve_for se (mp_collateral (se_match se) u) coll /\ curve_for se (mp_borrowing (se_match se) u) borrow /\ stock_for se u s dv /\
  stock_through es (s, eval, dv) (s0, t0, dv0) /\ stock_moved upto (s0, t0, dv0) (s1, t1, dv1) /\
  futures_npv eval coll borrow s dv (future_of de i uc) = Ret (ROk mid) /\ shows c i (result_of_npv mid) /\
  futures_npv eval coll borrow s0 dv0 (future_of de i uc) = Ret (ROk base) /\ futures_npv upto coll borrow s1 dv1 (future_of de i uc) = Ret (ROk up) /\
  get_time_difference eval upto = Ret years /\ ca_theta c = Some (decay up base (gof_Z 0) (notional i) years).
Proof using H NP TH.
  intros u us uc KI.
  destruct (c218_view _ se i c H NP TH) as (d & upto & es & v & v0 & v' & res & base & up & years & cp & fl & flows & AD & TD & S & M0 & M1 & A & SH & B & B' & YR & CP & EC & _ & PF & G); [unfold type_name; rewrite KI; cbn; intuition discriminate|].
  destruct (through_view _ _ _ M0) as (T1 & T2 & T3 & T4 & T5 & T6 & T7). destruct M1 as (U1 & U2 & U3 & U4 & U5 & U6 & U7).
  destruct S as [u' us' uc' k b s dv Z S2 S3 S4|? ? ? ? ? ? ? ? ? ? ? ? Z|? ? ? ? ? ? ? Z|? ? ? ? ? ? Z|? ? ? ? ? ? ? ? ? ? Z|? ? ? Z|Z]; try congruence.
  assert (u' = u /\ uc' = uc) as (-> & ->) by (split; congruence). cbn [vw_date vw_curves vw_equity vw_vol vw_rate vw_quanto vw_fixings] in *. rewrite (last_eval _ _ _ _ _ TD) in T1.
  destruct v0 as [da0 cs0 eq0 vol0 rt0 qt0 fx0]. destruct v' as [da1 cs1 eq1 vol1 rt1 qt1 fx1]. cbn [vw_date vw_curves vw_equity vw_vol vw_rate vw_quanto vw_fixings] in *. subst.
  destruct eq0 as [[[s0 t0] dv0]|]; [|contradiction T7]. destruct eq1 as [[[s1 t1] dv1]|]; [|contradiction U7].
  cbn [library fo_result fo_npv] in A, B, B'. unfold real_result in A. unfold real_npv in B, B'. rewrite KI in A, B, B'. cbn [vw_curves vw_equity vw_date vw_vol vw_quanto] in A, B, B'. unfold futures_result in A.
  apply QLoadProofs.rbind_ok in A. destruct A as (mid & A1 & A2). apply ret_inj, rok_inj in A2. subst res. apply (no_flows _ _ _ CP) in EC. subst fl. rewrite (Permutation_nil (Permutation_sym PF)) in G. cbn [paid List.filter map fold_left] in G.
  exists d, upto, es, k, b, s, dv, s0, t0, dv0, s1, t1, dv1, mid, base, up, years. do 12 (split; [assumption|]). exact G.
Qed.
(** options: the surface stays as well *)
Theorem c218_option : forall ty u uc q, in_kind i = KOption ty u uc false q ->
  exists d upto es fund coll borrow s dv s0 t0 dv0 s1 t1 dv1 f qv mid base up years,
  add_days eval (cf_theta_day (se_config se)) = Ret d /\ theta_dates se i d upto es /\
  curve_for se (mp_funding (se_match se) (ccy i)) fund /\ curve_for se (mp_collateral (se_match se) u) coll /\ curve_for se (mp_borrowing (se_match se) u) borrow /\ stock_for se u s dv /\ surface_for se u f /\ quanto_for se i u uc qv /\
  stock_through es (s, eval, dv) (s0, t0, dv0) /\ stock_moved upto (s0, t0, dv0) (s1, t1, dv1) /\
  let price date x y := option_npv f_ln f_cdf date coll borrow fund x y (surface_vol f) qv (option_of de i ty uc q) in
  price eval s dv = Ret (ROk mid) /\ shows c i (result_of_npv mid) /\ price eval s0 dv0 = Ret (ROk base) /\ price upto s1 dv1 = Ret (ROk up) /\
  get_time_difference eval upto = Ret years /\ ca_theta c = Some (decay up base (gof_Z 0) (notional i) years).
Proof using H NP TH.
  intros ty u uc q KI.
  destruct (c218_view _ se i c H NP TH) as (d & upto & es & v & v0 & v' & res & base & up & years & cp & fl & flows & AD & TD & S & M0 & M1 & A & SH & B & B' & YR & CP & EC & _ & PF & G); [unfold type_name; rewrite KI; destruct ty; cbn; intuition discriminate|].
  destruct (through_view _ _ _ M0) as (T1 & T2 & T3 & T4 & T5 & T6 & T7). destruct M1 as (U1 & U2 & U3 & U4 & U5 & U6 & U7).
  destruct S as [? ? ? ? ? ? ? Z|ty' u' uc' q' a k b s dv f e qv Z S1 S2 S3 S4 S5 S6|? ? ? ? ? ? ? Z|? ? ? ? ? ? Z|? ? ? ? ? ? ? ? ? ? Z|? ? ? Z|Z]; try congruence.
  assert (ty' = ty /\ u' = u /\ uc' = uc /\ q' = q) as (-> & -> & -> & ->) by (repeat split; congruence). cbn [vw_date vw_curves vw_equity vw_vol vw_rate vw_quanto vw_fixings] in *. rewrite (last_eval _ _ _ _ _ TD) in T1.
  destruct v0 as [da0 cs0 eq0 vol0 rt0 qt0 fx0]. destruct v' as [da1 cs1 eq1 vol1 rt1 qt1 fx1]. cbn [vw_date vw_curves vw_equity vw_vol vw_rate vw_quanto vw_fixings] in *. subst.
  destruct eq0 as [[[s0 t0] dv0]|]; [|contradiction T7]. destruct eq1 as [[[s1 t1] dv1]|]; [|contradiction U7].
  destruct vol0 as [[f0 e0]|]; [|discriminate T6]. destruct vol1 as [[f1 e1]|]; [|discriminate U6]. cbn [option_map fst] in T6, U6. apply some_inj in T6, U6. subst f0 f1.
  cbn [library fo_result fo_npv] in A, B, B'. unfold real_result in A. unfold real_npv in B, B'. rewrite KI in A, B, B'. cbn [vw_curves vw_equity vw_date vw_vol vw_quanto] in A, B, B'. unfold option_result in A.
  apply QLoadProofs.rbind_ok in A. destruct A as (mid & A1 & A2). apply ret_inj, rok_inj in A2. subst res. apply (no_flows _ _ _ CP) in EC. subst fl. rewrite (Permutation_nil (Permutation_sym PF)) in G. cbn [paid List.filter map fold_left] in G.
  exists d, upto, es, a, k, b, s, dv, s0, t0, dv0, s1, t1, dv1, f, qv, mid, base, up, years. do 15 (split; [assumption|]). exact G.
Qed.
(** a bond: only the date changes, and the coupons until then are counted *)
Hypothesis IT : forall k b v j, iterates (su k b v j).
Theorem c218_bond : forall issuer t r x, in_kind i = KBond issuer t r x ->
  exists d upto es disc fwd past res base up o1 o2 o3 coupons listed,
  add_days eval (cf_theta_day (se_config se)) = Ret d /\ theta_dates se i d upto es /\ iterates o1 /\ iterates o2 /\ iterates o3 /\
  curve_for se (mp_bond (se_match se) (issuer, t, r, ccy i)) disc /\ index_for se x fwd past /\
  bond_npv_result f_ln o1 eval disc fwd past (de_bond de i) = Ret (ROk res) /\ shows c i res /\
  bond_npv f_ln o2 eval disc fwd past (de_bond de i) = Ret (ROk base) /\ bond_npv f_ln o3 upto disc fwd past (de_bond de i) = Ret (ROk up) /\
  (forall l, Permutation (coupons l) l) /\ expected_coupons coupons res = ROk listed /\ theta_by se i c upto base up listed.
Proof using H NP TH IT.
  intros issuer t r x KI.
  destruct (c218_view _ se i c H NP TH) as (d & upto & es & v & v0 & v' & res & base & up & years & cp & fl & flows & AD & TD & S & M0 & M1 & A & SH & B & B' & YR & CP & EC & _ & PF & G); [unfold type_name; rewrite KI; cbn; intuition discriminate|].
  destruct (through_view _ _ _ M0) as (T1 & T2 & T3 & T4 & T5 & T6 & T7). destruct M1 as (U1 & U2 & U3 & U4 & U5 & U6 & U7).
  destruct S as [? ? ? ? ? ? ? Z|? ? ? ? ? ? ? ? ? ? ? ? Z|issuer' t' r' x' a f p Z S1 S2|? ? ? ? ? ? Z|? ? ? ? ? ? ? ? ? ? Z|? ? ? Z|Z]; try congruence.
  assert (issuer' = issuer /\ t' = t /\ r' = r /\ x' = x) as (-> & -> & -> & ->) by (repeat split; congruence). cbn [vw_date vw_curves vw_equity vw_vol vw_rate vw_quanto vw_fixings] in *. rewrite (last_eval _ _ _ _ _ TD) in T1.
  destruct v0 as [da0 cs0 eq0 vol0 rt0 qt0 fx0]. destruct v' as [da1 cs1 eq1 vol1 rt1 qt1 fx1]. cbn [vw_date vw_curves vw_equity vw_vol vw_rate vw_quanto vw_fixings] in *. subst.
  cbn [library fo_result fo_npv] in A, B, B'. unfold real_result in A. unfold real_npv in B, B'. rewrite KI in A, B, B'. cbn [vw_curves vw_equity vw_date vw_fixings] in A, B, B'.
  exists d, upto, es, a, f, p, res, base, up. do 3 eexists. exists cp, fl. split; [exact AD|]. split; [exact TD|]. do 3 (split; [apply IT|]). do 2 (split; [assumption|]). split; [exact A|]. split; [exact SH|]. split; [exact B|]. split; [exact B'|]. split; [exact CP|]. split; [exact EC|]. exists years, flows. auto.
Qed.
(** FX futures: only the date changes *)
Theorem c218_fx_futures : forall uc x, in_kind i = KFxFutures uc x ->
  exists d upto es u f rate mid base up years,
  add_days eval (cf_theta_day (se_config se)) = Ret d /\ theta_dates se i d upto es /\
  curve_for se (mp_crs (se_match se) uc) u /\ curve_for se (mp_crs (se_match se) (ccy i)) f /\ rate_for se (Some x) (Some rate) /\
  fx_futures_npv eval u f rate (fx_future_of de i uc x) = Ret (ROk mid) /\ shows c i (result_of_npv mid) /\ base = mid /\ fx_futures_npv upto u f rate (fx_future_of de i uc x) = Ret (ROk up) /\
  get_time_difference eval upto = Ret years /\ ca_theta c = Some (decay up base (gof_Z 0) (notional i) years).
Proof using H NP TH.
  intros uc x KI.
  destruct (c218_view _ se i c H NP TH) as (d & upto & es & v & v0 & v' & res & base & up & years & cp & fl & flows & AD & TD & S & M0 & M1 & A & SH & B & B' & YR & CP & EC & _ & PF & G); [unfold type_name; rewrite KI; cbn; intuition discriminate|].
  destruct (through_view _ _ _ M0) as (T1 & T2 & T3 & T4 & T5 & T6 & T7). destruct M1 as (U1 & U2 & U3 & U4 & U5 & U6 & U7).
  destruct S as [? ? ? ? ? ? ? Z|? ? ? ? ? ? ? ? ? ? ? ? Z|? ? ? ? ? ? ? Z|uc' x' u f r rd Z S2 S3 S4|? ? ? ? ? ? ? ? ? ? Z|? ? ? Z|Z]; try congruence.
  assert (x' = x /\ uc' = uc) as (-> & ->) by (split; congruence). cbn [vw_date vw_curves vw_equity vw_vol vw_rate vw_quanto vw_fixings] in *. rewrite (last_eval _ _ _ _ _ TD) in T1.
  destruct v0 as [da0 cs0 eq0 vol0 rt0 qt0 fx0]. destruct v' as [da1 cs1 eq1 vol1 rt1 qt1 fx1]. cbn [vw_date vw_curves vw_equity vw_vol vw_rate vw_quanto vw_fixings] in *. subst.
  cbn [library fo_result fo_npv] in A, B, B'. unfold real_result in A. unfold real_npv in B, B'. rewrite KI in A, B, B'. cbn [vw_curves vw_equity vw_date rate_of vw_rate option_map fst] in A, B, B'. unfold fx_futures_result in A.
  apply QLoadProofs.rbind_ok in A. destruct A as (mid & A1 & A2). apply ret_inj, rok_inj in A2. subst res. apply (no_flows _ _ _ CP) in EC. subst fl. rewrite (Permutation_nil (Permutation_sym PF)) in G. cbn [paid List.filter map fold_left] in G.
  assert (base = mid) by (rewrite A1 in B; apply ret_inj, rok_inj in B; symmetry; exact B).
  exists d, upto, es, u, f, r, mid, base, up, years. do 10 (split; [assumption|]). exact G.
Qed.
(** a swap: only the date changes, and the cash flows until then are counted *)
Theorem c218_swap : forall t fc x fx, in_kind i = KSwap t fc x fx ->
  exists d upto es d1 d2 fwd past rate res base up o1 o2 o3 o4 o5 o6 coupons listed,
  add_days eval (cf_theta_day (se_config se)) = Ret d /\ theta_dates se i d upto es /\ iterates o1 /\ iterates o2 /\ iterates o3 /\ iterates o4 /\ iterates o5 /\ iterates o6 /\
  curve_for se (mp_crs (se_match se) (ccy i)) d1 /\ curve_for se (mp_crs (se_match se) fc) d2 /\ index_for se x fwd past /\ rate_for se fx rate /\
  swap_npv_result f_ln o1 o2 eval d1 d2 fwd past rate (de_swap de i) = Ret (ROk res) /\ shows c i res /\
  swap_npv f_ln o3 o4 eval d1 d2 fwd past rate (de_swap de i) = Ret (ROk base) /\ swap_npv f_ln o5 o6 upto d1 d2 fwd past rate (de_swap de i) = Ret (ROk up) /\
  (forall l, Permutation (coupons l) l) /\ expected_coupons coupons res = ROk listed /\ theta_by se i c upto base up listed.
Proof using H NP TH IT.
  intros t fc x fx KI.
  destruct (c218_view _ se i c H NP TH) as (d & upto & es & v & v0 & v' & res & base & up & years & cp & fl & flows & AD & TD & S & M0 & M1 & A & SH & B & B' & YR & CP & EC & _ & PF & G); [unfold type_name; rewrite KI; destruct t; cbn; intuition discriminate|].
  destruct (through_view _ _ _ M0) as (T1 & T2 & T3 & T4 & T5 & T6 & T7). destruct M1 as (U1 & U2 & U3 & U4 & U5 & U6 & U7).
  destruct S as [? ? ? ? ? ? ? Z|? ? ? ? ? ? ? ? ? ? ? ? Z|? ? ? ? ? ? ? Z|? ? ? ? ? ? Z|t' fc' x' fx' a b f p r w Z S1 S2 S3 S4 S5|? ? ? Z|Z]; try congruence.
  assert (t' = t /\ fc' = fc /\ x' = x /\ fx' = fx) as (-> & -> & -> & ->) by (repeat split; congruence). cbn [vw_date vw_curves vw_equity vw_vol vw_rate vw_quanto vw_fixings] in *. rewrite (last_eval _ _ _ _ _ TD) in T1.
  destruct v0 as [da0 cs0 eq0 vol0 rt0 qt0 fx0]. destruct v' as [da1 cs1 eq1 vol1 rt1 qt1 fx1]. cbn [vw_date vw_curves vw_equity vw_vol vw_rate vw_quanto vw_fixings] in *. subst.
  cbn [library fo_result fo_npv] in A, B, B'. unfold real_result in A. unfold real_npv in B, B'. rewrite KI in A, B, B'. cbn [vw_curves vw_equity vw_date vw_fixings] in A, B, B'. unfold rate_of at 1 in A. unfold rate_of at 1 in B. unfold rate_of at 1 in B'. cbn [vw_rate] in A, B, B'.
  exists d, upto, es, a, b, f, p. do 4 eexists. do 6 eexists. exists cp, fl. split; [exact AD|]. split; [exact TD|]. do 6 (split; [apply IT|]). do 4 (split; [eassumption|]). split; [exact A|]. split; [exact SH|]. split; [exact B|]. split; [exact B'|]. split; [exact CP|]. split; [exact EC|]. exists years, flows. auto.
Qed.
End Library.

(** ** Examples: two futures on "a", which pays a dividend; one of them matures first *)
Definition ex_payer : data := Data ex_rates (fun u => if String.eqb u "a" then Some (gof_Z 100) else None) (fun _ => Some zero_data) (fun u => if String.eqb u "a" then Some (VectorData [gof_Z 2; gof_Z 1] (Some [day_of 2024 4 10; day_of 2024 11 1]) [] None) else None) (fun _ => Some sixteenth) (fun _ => None) (fun _ => None) (fun _ => None) (fun _ => None).
Definition ex_decays : config := Config true true false false false false false true false false false false (gdiv (gof_Z 1) (gof_Z 4)) (gdiv (gof_Z 1) (gof_Z 4)) pct pct pct bp bp 60 [] ex_tenors [] ex_money.
Definition ex_ageing : setup := Setup ex_eval ex_decays StickyToStrike true ex_names ex_payer ex_one.
Definition ex_soon : instrument := Inst "futures" "F0" Ccy_KRW (gof_Z 10) (day_of 2024 4 20) (KFutures ["a"%string] Ccy_KRW).
Definition ex_held : list instrument := [ex_soon; ex_call; ex_fut; ex_paper; ex_fxf; ex_fwd; ex_share; ex_note].
Definition ex_aged : orders := Orders (map code ex_held) ["a"%string] (fun x => x) (fun x => x) (fun x => x).
Definition given {A} (o : option A) : bool := match o with Some _ => true | None => false end.
Definition ex_thetas (r : outcome (rresult (string -> option calc))) : bool :=
  match r with
  | Ret (ROk r) => forallb (fun i => match r (code i) with Some c => given (ca_theta c) | None => false end) ex_held
  | _ => false end.
Lemma ex_thetas_reported : forall f_ln f_cdf, ex_thetas (group_run (library f_ln f_cdf (ex_fields QBondPriceProps.ex_fixed) ex_as_is) ex_ageing ex_aged ex_held) = true. Proof. intros f_ln f_cdf. vm_compute. reflexivity. Qed.
Lemma ex_held_codes : NoDup (map code ex_held). Proof. repeat constructor; cbn; intuition discriminate. Qed.
Lemma ex_held_asked : ~ asked ex_held dummy.
Proof. intros (i & I & U). cbn [ex_held In] in I. repeat (destruct I as [<-|I]; [cbn in U; intuition discriminate|]). contradiction I. Qed.
Lemma ex_ageing_div : forall u, da_div ex_payer u <> None -> u = "a"%string.
Proof. intros u Q. unfold ex_payer in Q. cbn [da_div] in Q. destruct (String.eqb u "a") eqn:E; [apply String.eqb_eq; exact E|contradiction Q; reflexivity]. Qed.
Lemma ex_aged_orders : orders_ok ex_ageing ex_held ex_aged.
Proof.
  apply Build_orders_ok; unfold ex_aged; cbn [or_keys or_div_keys or_shuffle or_coupons or_cash]; try (intro l; apply Permutation_refl).
  - split; [exact ex_held_codes|intro k; apply iff_refl].
  - split; [apply NoDup_cons; [intros []|apply NoDup_nil]|]. intro u. unfold ex_ageing. cbn [se_data]. split.
    + intros [<-|[]]. split; [exists ex_soon; split; left; reflexivity|discriminate].
    + intros [_ Q]. left. symmetry. exact (ex_ageing_div u Q).
Qed.
Lemma ex_theta_may : forall fo se is o, orders_ok se is o -> ex_thetas (group_run fo se o is) = true -> exists rs, may fo se is (ROk rs) /\ ex_thetas (Ret (ROk rs)) = true.
Proof. intros fo se is o O T. destruct (group_run fo se o is) as [[rs|]| |] eqn:R; try discriminate T. exists rs. split; [exists o; split; assumption|exact T]. Qed.
Definition ex_order (o : outcome odt) (a b : odt) : bool := match o with Ret d => (instant a <? instant d) && (instant d <? instant b) | _ => false end.
Lemma ex_order_ok : forall o a b, ex_order o a b = true -> exists d, o = Ret d /\ instant a < instant d /\ instant d < instant b.
Proof. intros [d| |] a b X; try discriminate X. apply andb_true_iff in X. destruct X as [B1 B2]. apply Z.ltb_lt in B1, B2. exists d. auto. Qed.
Lemma ex_sixty : ex_order (add_days ex_eval 60) (in_maturity ex_soon) (in_maturity ex_fut) = true. Proof. vm_compute. reflexivity. Qed.
Lemma ex_sixty_days : exists d, add_days ex_eval 60 = Ret d /\ instant (in_maturity ex_soon) < instant d /\ instant d < instant (in_maturity ex_fut).
Proof. exact (ex_order_ok _ _ _ ex_sixty). Qed.
(** all of them are reported with a theta: the first futures matures within the sixty days
    and all others do not; the dividend is between *)
Example c218_hypotheses_met : forall f_ln f_cdf, let fo := library f_ln f_cdf (ex_fields QBondPriceProps.ex_fixed) ex_as_is in
  cf_npv (se_config ex_ageing) = true /\ cf_theta (se_config ex_ageing) = true /\
  (exists d x, add_days ex_eval 60 = Ret d /\ maturity ex_soon = Some x /\ instant x < instant d /\ (forall y, maturity ex_fut = Some y -> instant d < instant y)) /\
  forall i, In i ex_held -> exists c v, reported_by fo ex_ageing i c /\ ca_theta c = Some v.
Proof.
  intros f_ln f_cdf fo. split; [reflexivity|]. split; [reflexivity|]. split.
  { destruct ex_sixty_days as (d & Q & B1 & B2). exists d, (in_maturity ex_soon). split; [exact Q|]. split; [reflexivity|]. split; [exact B1|]. intros y Y. assert (y = in_maturity ex_fut) by (unfold maturity in Y; cbn [ex_fut ex_inst in_kind] in Y; congruence). subst y. exact B2. }
  intros i I. destruct (ex_theta_may fo ex_ageing ex_held ex_aged ex_aged_orders (ex_thetas_reported f_ln f_cdf)) as (rs & R & X).
  assert (X' : forall j, In j ex_held -> match rs (code j) with Some c => given (ca_theta c) | None => false end = true) by (apply forallb_forall; exact X). specialize (X' i I).
  destruct (rs (code i)) as [c|] eqn:Q; [|discriminate X']. destruct (ca_theta c) as [v|] eqn:V; [|discriminate X']. exists c, v. split; [|exact V]. exists ex_held, rs. split; [exact R|]. split; [exact ex_held_codes|]. split; [exact ex_held_asked|]. split; [exact I|exact Q].
Qed.

(** C219: REFUTED: that a portfolio can be reported does not mean that its theta can.  The
    only dividend of "a" is in April: on the way through the sixty days the process panics *)
Definition ex_once : data := Data ex_rates (fun u => if String.eqb u "a" then Some (gof_Z 100) else None) (fun _ => Some zero_data) (fun u => if String.eqb u "a" then Some (VectorData [gof_Z 2] (Some [day_of 2024 4 10]) [] None) else None) (fun _ => Some sixteenth) (fun _ => None) (fun _ => None) (fun _ => None) (fun _ => None).
Definition ex_still : config := Config true true false false false false false false false false false false (gdiv (gof_Z 1) (gof_Z 4)) (gdiv (gof_Z 1) (gof_Z 4)) pct pct pct bp bp 60 [] ex_tenors [] ex_money.
Definition ex_last (theta : bool) : setup := Setup ex_eval (if theta then ex_decays else ex_still) StickyToStrike true ex_names ex_once ex_one.
Definition ex_alone : orders := Orders ["F1"%string] ["a"%string] (fun x => x) (fun x => x) (fun x => x).
Definition is_panic {A} (o : outcome A) : bool := match o with Panic => true | _ => false end.
Definition is_ok {A} (o : outcome (rresult A)) : bool := match o with Ret (ROk _) => true | _ => false end.
Lemma is_panic_ok : forall A (o : outcome A), is_panic o = true -> o = Panic. Proof. intros A [x| |] E; try discriminate E. reflexivity. Qed.
Lemma is_ok_ok : forall A (o : outcome (rresult A)), is_ok o = true -> exists x, o = Ret (ROk x). Proof. intros A [[x|]| |] E; try discriminate E. exists x. reflexivity. Qed.
Lemma ex_last_panics : forall f_ln f_cdf, is_panic (group_run (library f_ln f_cdf (ex_fields QBondPriceProps.ex_fixed) ex_as_is) (ex_last true) ex_alone [ex_fut]) = true. Proof. intros f_ln f_cdf. vm_compute. reflexivity. Qed.
Lemma ex_last_reports : forall f_ln f_cdf, is_ok (group_run (library f_ln f_cdf (ex_fields QBondPriceProps.ex_fixed) ex_as_is) (ex_last false) ex_alone [ex_fut]) = true. Proof. intros f_ln f_cdf. vm_compute. reflexivity. Qed.
Lemma ex_alone_orders : forall theta, orders_ok (ex_last theta) [ex_fut] ex_alone.
Proof.
  intro theta. apply Build_orders_ok; unfold ex_alone; cbn [or_keys or_div_keys or_shuffle or_coupons or_cash]; try (intro l; apply Permutation_refl).
  - split; [apply NoDup_cons; [intros []|apply NoDup_nil]|intro k; apply iff_refl].
  - split; [apply NoDup_cons; [intros []|apply NoDup_nil]|]. intro u. unfold ex_last. cbn [se_data]. split.
    + intros [<-|[]]. split; [exists ex_fut; split; left; reflexivity|discriminate].
    + intros [_ Q]. left. unfold ex_once in Q. cbn [da_div] in Q. destruct (String.eqb u "a") eqn:E; [symmetry; apply String.eqb_eq; exact E|contradiction Q; reflexivity].
Qed.
Theorem c219_last_dividend_refuted : forall f_ln f_cdf, let fo := library f_ln f_cdf (ex_fields QBondPriceProps.ex_fixed) ex_as_is in
  cf_theta (se_config (ex_last true)) = true /\ cf_theta (se_config (ex_last false)) = false /\ cf_theta_day (se_config (ex_last true)) = 60 /\ se_data (ex_last true) = se_data (ex_last false) /\
  exists o, (forall theta, orders_ok (ex_last theta) [ex_fut] o) /\ (exists rs, group_run fo (ex_last false) o [ex_fut] = Ret (ROk rs)) /\ group_run fo (ex_last true) o [ex_fut] = Panic.
Proof.
  intros f_ln f_cdf fo. do 4 (split; [reflexivity|]). exists ex_alone. split; [exact ex_alone_orders|]. split; [exact (is_ok_ok _ _ (ex_last_reports f_ln f_cdf))|exact (is_panic_ok _ _ (ex_last_panics f_ln f_cdf))].
Qed.

Print Assumptions c218_view.
Print Assumptions c218_zero.
Print Assumptions c218_futures.
Print Assumptions c218_option.
Print Assumptions c218_bond.
Print Assumptions c218_fx_futures.
Print Assumptions c218_swap.
Print Assumptions c219_last_dividend_refuted.
