(** QWholeProps.v -- C204 to C208: from the data to the report. *)
From Coq Require Import ZArith Ascii String.
From Coq Require Import List Bool Lia Reals Lra Permutation Relations.
From Flocq Require Import Core IEEE754.BinarySingleNaN.
From Verif Require Import Base FloatModel FloatFacts KrxModel QDateModel QYearModel QInterpModel QDivModel QDivSpec QMoneyModel QBondModel QSwapModel QSwapProps QFutModel QInstModel QInstSpec QInstProps QMatchProps QVolModel QEngModel QEngSpec QEngProofs QEngFrame QEngProps QEngDeltaProps QLoadModel QLoadSpec QLoadProofs QLoadProps QPricerProps QGenModel QGenProofs QGenProps QGroupProofs QGroupProps QWholeModel QWholeSpec QWholeProofs.
From Verif Require Import CivilSpec QDivProps QBondProofs QLinProps QCurveProps QCurveExp QCurveFwdProps QBlackExp QVolSpec QVolProps QInterpSpec QFindModel QSwapSpec QCurveModel QCurveSpec QCurveReach QCouponProps QFutProps QOptSpec QOptProps QBondSpec QBondPriceProps QSwapPriceProps QFloatErr.
Import ListNotations.
Open Scope Z_scope.

(** ** Reports *)
(** C204: what a generator reports for an instrument of its portfolio is a report of an
    engine *)
Theorem c204_generated : forall fo se g g1 g', gen_distribute g = (ROk tt, g1) -> calculates (may fo se) g1 (ROk tt) g' -> NoDup (map code (ge_insts g)) -> ~ asked (ge_insts g) dummy ->
  forall i, In i (ge_insts g) -> exists c, ge_results g' (code i) = Some c /\ reported_by fo se i c.
Proof.
  intros fo se g h g' X R N D i I. unfold gen_distribute in X. destruct (distribute_insts (ge_cats g) (ge_insts g)) as [gs|] eqn:DI; [|discriminate X]. apply (f_equal snd) in X. cbn [snd] in X. subst h. destruct (c175_groups _ _ _ DI) as [P _].
  assert (NC : NoDup (map code (concat gs))) by (apply (Permutation_NoDup (Permutation_sym (Permutation_map code P))); exact N). destruct (c199_each fo se _ _ R NC) as [A _]. cbn [ge_groups] in A. pose proof (Permutation_in i (Permutation_sym P) I) as J. apply in_concat in J. destruct J as (is & G & J). destruct (A is G) as (rs & M & Q).
  destruct (Q i J) as [Q1 Q2]. destruct (rs (code i)) as [c|] eqn:E; [|contradiction Q2; reflexivity]. exists c. split; [congruence|]. exists is, rs. split; [exact M|]. split; [|split; [|split; [exact J|exact E]]].
  - clear -G NC. induction gs as [|x gs IH]; [contradiction G|]. cbn [concat] in NC. rewrite map_app in NC. destruct G as [->|G]; [exact (nodup_fst _ _ _ NC)|exact (IH (nodup_snd _ _ _ NC) G)].
  - intros (j & Jj & U). apply D. exists j. split; [|exact U]. apply (Permutation_in j P). apply in_concat. exists is. auto.
Qed.

(** the price, the value and the exposures are those of the formulas for what the data have
    for the instrument *)
Theorem c204_inputs : forall fo se i c, reported_by fo se i c -> cf_npv (se_config se) = true ->
  exists v res, sees se i v /\ fo_result fo v i = Ret (ROk res) /\ shows c i res /\
    (cf_fx (se_config se) = true -> exists e, fo_fx fo v i (nr_npv res) = Ret (ROk e) /\ ca_fx c = Some e).
Proof.
  intros fo se i c (is & r & M & N & D & I & E) NP. destruct (in_engine fo se is r i M N I) as (sh & l & w & cx & s & s' & L & C & W & R & E1 & G & F & P & K).
  destruct (c182_value cx (ld_market l) s s' W) with (i := i) as (x & fl & (p & Q & V) & _ & c' & H & U & A & B & _); [rewrite G; exact N|rewrite G; exact K|rewrite F; exact NP|exact R|rewrite G; exact I|].
  assert (p = pricer_of fo w) by congruence. subst p. assert (c' = c) by congruence. subst c'. cbn [pricer_of pr_result] in V. exists (view_of (ld_market l) w), x. split; [exact (sees_it se sh is l i w L D I C)|]. split; [exact V|]. split; [split; [exact U|split; [exact A|exact B]]|].
  intro FX. destruct (fx_calculated cx (ld_market l) s s' W) with (i := i) as (p & x' & e & P' & V' & X & c' & H' & Y); [rewrite G; exact N|rewrite G; exact K|rewrite F; exact NP|rewrite F; exact FX|exact R|rewrite G; exact I|].
  assert (p = pricer_of fo w) by congruence. subst p. cbn [pricer_of pr_result pr_fx] in V', X. assert (x' = x) by congruence. subst x'. exists e. split; [exact X|congruence].
Qed.

(** the terms that the formulas below are given are those of the instrument *)
Theorem c204_terms : forall de i uc x ty q,
  (let f := future_of de i uc in fu_average f = de_average de i /\ fu_maturity f = in_maturity i /\ fu_notional f = in_notional i /\ fu_ccy f = in_ccy i /\ fu_und_ccy f = uc) /\
  (let f := fx_future_of de i uc x in ff_average f = de_average de i /\ ff_maturity f = in_maturity i /\ ff_notional f = in_notional i /\ ff_ccy f = in_ccy i /\ ff_und_ccy f = uc /\ ff_fx f = x) /\
  (let o := option_of de i ty uc q in vo_strike o = de_strike de i /\ vo_notional o = in_notional i /\ vo_maturity o = in_maturity i /\ vo_und_ccy o = uc /\ vo_ccy o = in_ccy i /\ vo_quanto_fx o = q /\ vo_type o = ty).
Proof. intros. repeat split. Qed.

Section Library.
Context (f_ln f_cdf : f32 -> f32) (de : details) (su : sums) (se : setup) (i : instrument) (c : calc).
Hypotheses (H : reported_by (library f_ln f_cdf de su) se i c) (NP : cf_npv (se_config se) = true).
(** each map is gone through in some order *)
Hypothesis IT : forall k b v j, iterates (su k b v j).
Let wants_fx := cf_fx (se_config se) = true.
Let eval := se_eval se.

(** a stock is worth its price *)
Theorem c204_stock : forall u, in_kind i = KStock u -> exists s, da_stock (se_data se) (code i) = Some s /\ shows c i (result_of_npv s) /\ (wants_fx -> ca_fx c = Some [(ccy i, gmul s (notional i))]).
Proof using H NP.
  intros u K. destruct (c204_inputs _ _ _ _ H NP) as (v & res & S & R & C & X). destruct S as [? ? ? ? ? ? ? Q|? ? ? ? ? ? ? ? ? ? ? ? Q|? ? ? ? ? ? ? Q|? ? ? ? ? ? Q|? ? ? ? ? ? ? ? ? ? Q|u' s dv Q [S1 S2]|Q]; try congruence.
  unfold library in R, X. cbn [fo_result fo_fx] in R, X. unfold real_result in R. unfold real_fx in X. rewrite K in R, X. cbn in R. injection R as <-. exists s. split; [exact S1|]. split; [exact C|]. intro FX. destruct (X FX) as (e & Y & Z). cbn in Y. injection Y as <-. exact Z.
Qed.
(** cash is worth one *)
Theorem c204_cash : in_kind i = KCash -> shows c i (result_of_npv (gof_Z 1)) /\ (wants_fx -> ca_fx c = Some [(ccy i, gmul (gof_Z 1) (notional i))]).
Proof using H NP.
  intros K. destruct (c204_inputs _ _ _ _ H NP) as (v & res & S & R & C & X). destruct S as [? ? ? ? ? ? ? Q|? ? ? ? ? ? ? ? ? ? ? ? Q|? ? ? ? ? ? ? Q|? ? ? ? ? ? Q|? ? ? ? ? ? ? ? ? ? Q|? ? ? Q|Q]; try congruence.
  unfold library in R, X. cbn [fo_result fo_fx] in R, X. unfold real_result in R. unfold real_fx in X. rewrite K in R, X. unfold unit_npv, simple_result, rbind in R. apply ret_inj, rok_inj in R. subst res. split; [exact C|]. intro FX. destruct (X FX) as (e & Y & Z). unfold default_exposure in Y. apply ret_inj, rok_inj in Y. subst e. exact Z.
Qed.

(** a futures is worth the fair forward of its underlying: from the collateral and the
    borrowing curves, the price and the dividends that the data have for it *)
Theorem c204_futures : forall u us uc, in_kind i = KFutures (u :: us) uc -> exists coll borrow s dv x,
  curve_for se (mp_collateral (se_match se) u) coll /\ curve_for se (mp_borrowing (se_match se) u) borrow /\ stock_for se u s dv /\
  futures_npv eval coll borrow s dv (future_of de i uc) = Ret (ROk x) /\ shows c i (result_of_npv x) /\ (wants_fx -> ca_fx c = Some [(ccy i, gmul (gsub x (de_average de i)) (notional i))]).
Proof using H NP.
  intros u us uc K. destruct (c204_inputs _ _ _ _ H NP) as (v & res & S & R & C & X). destruct S as [u' us' uc' a b s dv Q S1 S2 S3|? ? ? ? ? ? ? ? ? ? ? ? Q|? ? ? ? ? ? ? Q|? ? ? ? ? ? Q|? ? ? ? ? ? ? ? ? ? Q|? ? ? Q|Q]; try congruence.
  assert (u' = u /\ uc' = uc) as [-> ->] by (split; congruence). unfold library in R, X. cbn [fo_result fo_fx] in R, X. unfold real_result in R. unfold real_fx in X. rewrite K in R, X. cbn [vw_curves vw_equity vw_date] in R, X. unfold futures_result in R.
  apply rbind_ok in R. destruct R as (x & R1 & R2). apply ret_inj, rok_inj in R2. subst res. exists a, b, s, dv, x. split; [exact S1|]. split; [exact S2|]. split; [exact S3|]. split; [exact R1|]. split; [exact C|].
  intro FX. destruct (X FX) as (e & Y & Z). unfold futures_exposure, futures_npv in Y. change (fair_forward (se_eval se) a b s dv (fu_maturity (future_of de i uc)) = Ret (ROk x)) in R1. rewrite R1 in Y. cbv beta iota in Y. apply ret_inj, rok_inj in Y. rewrite Z, <- Y. unfold notional. rewrite K. reflexivity.
Qed.

(** an option is worth what the formula says of the funding, collateral and borrowing
    curves, price, dividends and surface that the data have for it *)
Theorem c204_option : forall ty u uc q, in_kind i = KOption ty u uc false q -> exists fund coll borrow s dv f qv x,
  curve_for se (mp_funding (se_match se) (ccy i)) fund /\ curve_for se (mp_collateral (se_match se) u) coll /\ curve_for se (mp_borrowing (se_match se) u) borrow /\ stock_for se u s dv /\
  surface_for se u f /\ quanto_for se i u uc qv /\
  option_npv f_ln f_cdf eval coll borrow fund s dv (surface_vol f) qv (option_of de i ty uc q) = Ret (ROk x) /\ shows c i (result_of_npv x) /\ (wants_fx -> ca_fx c = Some [(ccy i, gmul x (notional i))]).
Proof using H NP.
  intros ty u uc q K. destruct (c204_inputs _ _ _ _ H NP) as (v & res & S & R & C & X). destruct S as [? ? ? ? ? ? ? Q|ty' u' uc' q' a k b s dv f e qv Q S1 S2 S3 S4 S5 S6|? ? ? ? ? ? ? Q|? ? ? ? ? ? Q|? ? ? ? ? ? ? ? ? ? Q|? ? ? Q|Q]; try congruence.
  assert (ty' = ty /\ u' = u /\ uc' = uc /\ q' = q) as (-> & -> & -> & ->) by (repeat split; congruence). unfold library in R, X. cbn [fo_result fo_fx] in R, X. unfold real_result in R. unfold real_fx in X. rewrite K in R, X. cbn [vw_curves vw_equity vw_date vw_vol vw_quanto] in R, X. unfold option_result in R.
  apply rbind_ok in R. destruct R as (x & R1 & R2). apply ret_inj, rok_inj in R2. subst res. exists a, k, b, s, dv, f, qv, x. do 7 (split; [assumption|]). split; [exact C|].
  intro FX. destruct (X FX) as (y & Y & Z). unfold default_exposure in Y. apply ret_inj, rok_inj in Y. subst y. exact Z.
Qed.

(** a bond is worth the discounted cash flows of its schedule, on its issuer's curve *)
Theorem c204_bond : forall issuer t r x, in_kind i = KBond issuer t r x -> exists disc fwd past res o, iterates o /\
  curve_for se (mp_bond (se_match se) (issuer, t, r, ccy i)) disc /\ index_for se x fwd past /\
  bond_npv_result f_ln o eval disc fwd past (de_bond de i) = Ret (ROk res) /\ shows c i res /\ (wants_fx -> ca_fx c = Some [(ccy i, gmul (nr_npv res) (notional i))]).
Proof using H NP IT.
  intros issuer t r x K. destruct (c204_inputs _ _ _ _ H NP) as (v & res & S & R & C & X). destruct S as [? ? ? ? ? ? ? Q|? ? ? ? ? ? ? ? ? ? ? ? Q|issuer' t' r' x' a f p Q S1 S2|? ? ? ? ? ? Q|? ? ? ? ? ? ? ? ? ? Q|? ? ? Q|Q]; try congruence.
  assert (issuer' = issuer /\ t' = t /\ r' = r /\ x' = x) as (-> & -> & -> & ->) by (repeat split; congruence). unfold library in R, X. cbn [fo_result fo_fx] in R, X. unfold real_result in R. unfold real_fx in X. rewrite K in R, X. cbn [vw_curves vw_equity vw_date vw_fixings] in R, X.
  exists a, f, p, res. eexists. split; [apply IT|]. split; [exact S1|]. split; [exact S2|]. split; [exact R|]. split; [exact C|].
  intro FX. destruct (X FX) as (y & Y & Z). unfold default_exposure in Y. apply ret_inj, rok_inj in Y. subst y. exact Z.
Qed.

(** a swap is worth its floating leg at the rate of exchange less its fixed leg, each on
    the curve of its own currency *)
Theorem c204_swap : forall t fc x fx, in_kind i = KSwap t fc x fx -> exists d1 d2 fwd past rate res o1 o2, iterates o1 /\ iterates o2 /\
  curve_for se (mp_crs (se_match se) (ccy i)) d1 /\ curve_for se (mp_crs (se_match se) fc) d2 /\ index_for se x fwd past /\ rate_for se fx rate /\
  swap_npv_result f_ln o1 o2 eval d1 d2 fwd past rate (de_swap de i) = Ret (ROk res) /\ shows c i res /\
  (wants_fx -> exists e o3 o4, iterates o3 /\ iterates o4 /\ swap_exposure f_ln o3 o4 eval d1 d2 fwd past (de_swap de i) = Ret (ROk e) /\ ca_fx c = Some e).
Proof using H NP IT.
  intros t fc x fx K. destruct (c204_inputs _ _ _ _ H NP) as (v & res & S & R & C & X). destruct S as [? ? ? ? ? ? ? Q|? ? ? ? ? ? ? ? ? ? ? ? Q|? ? ? ? ? ? ? Q|? ? ? ? ? ? Q|t' fc' x' fx' a b f p r w Q S1 S2 S3 S4 S5|? ? ? Q|Q]; try congruence.
  assert (t' = t /\ fc' = fc /\ x' = x /\ fx' = fx) as (-> & -> & -> & ->) by (repeat split; congruence). unfold library in R, X. cbn [fo_result fo_fx] in R, X. unfold real_result in R. unfold real_fx in X. rewrite K in R, X. cbn [vw_curves vw_equity vw_date vw_fixings] in R, X. unfold rate_of at 1 in R. cbn [vw_rate] in R. rewrite <- S5 in R.
  exists a, b, f, p, r, res. do 2 eexists. split; [apply IT|]. split; [apply IT|]. split; [exact S1|]. split; [exact S2|]. split; [exact S3|]. split; [exact S4|]. split; [exact R|]. split; [exact C|].
  intro FX. destruct (X FX) as (y & Y & Z). exists y. do 2 eexists. split; [apply IT|]. split; [apply IT|]. split; [exact Y|exact Z].
Qed.

(** an FX futures is worth the rate of exchange times the ratio of discounts of the
    underlying currency and of its own *)
Theorem c204_fx_futures : forall uc x, in_kind i = KFxFutures uc x -> exists u f rate y,
  curve_for se (mp_crs (se_match se) uc) u /\ curve_for se (mp_crs (se_match se) (ccy i)) f /\ rate_for se (Some x) (Some rate) /\
  fx_futures_npv eval u f rate (fx_future_of de i uc x) = Ret (ROk y) /\ shows c i (result_of_npv y) /\
  (wants_fx -> exists e, fx_futures_exposure eval u f (fx_future_of de i uc x) = Ret (ROk e) /\ ca_fx c = Some e).
Proof using H NP.
  intros uc x K. destruct (c204_inputs _ _ _ _ H NP) as (v & res & S & R & C & X). destruct S as [? ? ? ? ? ? ? Q|? ? ? ? ? ? ? ? ? ? ? ? Q|? ? ? ? ? ? ? Q|uc' x' u f r rd Q S1 S2 S3|? ? ? ? ? ? ? ? ? ? Q|? ? ? Q|Q]; try congruence.
  assert (uc' = uc /\ x' = x) as (-> & ->) by (split; congruence). unfold library in R, X. cbn [fo_result fo_fx] in R, X. unfold real_result in R. unfold real_fx in X. rewrite K in R, X. cbn [vw_curves vw_equity vw_date rate_of vw_rate option_map fst] in R, X. unfold fx_futures_result in R.
  apply rbind_ok in R. destruct R as (y & R1 & R2). apply ret_inj, rok_inj in R2. subst res. exists u, f, r, y. do 4 (split; [assumption|]). split; [exact C|exact X].
Qed.
(** ** What the figures are worth *)
Open Scope R_scope.
(** C205: a stock: exactly its price *)
Theorem c205_stock : forall u s, in_kind i = KStock u -> da_stock (se_data se) (code i) = Some s -> finite s -> exists w, ca_value c = Some w /\ finite w /\ value w = value s.
Proof using H NP.
  intros u s K S F. destruct (c204_stock u K) as (s' & S' & (_ & _ & C) & _). assert (s' = s) by congruence. subst s'. exists (gmul s (notional i)). split; [exact C|]. unfold notional. rewrite K. destruct one_fn as [F1 V1]. exact (mul_one s _ F F1 V1).
Qed.
(** a futures: spot * borrow factor / collateral factor * what the dividends leave *)
Theorem c205_futures : forall u us uc coll borrow s dv q, in_kind i = KFutures (u :: us) uc ->
  curve_for se (mp_collateral (se_match se) u) coll -> curve_for se (mp_borrowing (se_match se) u) borrow -> stock_for se u s dv ->
  usual s -> priced eval coll (in_maturity i) -> priced eval borrow (in_maturity i) -> price_deduction_ratio dv (in_maturity i) = Ret (ROk q) -> finite q -> Rabs (value q) <= 2 ^ 10 ->
  let exact := value s * factor_on eval borrow (in_maturity i) / factor_on eval coll (in_maturity i) * value q in
  exists x, shows c i (result_of_npv x) /\ finite x /\ Rabs (value x - exact) <= Rabs exact * (4 / 2 ^ 24) + / 2 ^ 118.
Proof using H NP.
  intros u us uc coll borrow s dv q K C1 B1 S1 U P1 P2 Q FQ BQ exact. destruct (c204_futures u us uc K) as (coll' & borrow' & s' & dv' & x & C1' & B1' & S1' & R & SH & _).
  assert (coll' = coll) by exact (curve_for_one _ _ _ _ C1' C1). assert (borrow' = borrow) by exact (curve_for_one _ _ _ _ B1' B1). destruct (stock_for_one _ _ _ _ _ _ S1' S1) as [-> ->]. subst coll' borrow'.
  destruct (c162_value eval coll borrow s dv (in_maturity i) q U P1 P2 Q FQ BQ) as (F & E & FF & V). unfold futures_npv in R. cbn [future_of fu_maturity] in R. assert (x = F) by congruence. subst x. exists F. split; [exact SH|]. split; [exact FF|exact V].
Qed.
(** an FX futures: the rate carried forward with the factors of both currencies *)
Theorem c205_fx_futures : forall uc x u f rate, in_kind i = KFxFutures uc x -> curve_for se (mp_crs (se_match se) uc) u -> curve_for se (mp_crs (se_match se) (ccy i)) f -> rate_for se (Some x) (Some rate) ->
  usual rate -> priced eval u (in_maturity i) -> priced eval f (in_maturity i) ->
  let exact := value rate * factor_on eval u (in_maturity i) / factor_on eval f (in_maturity i) in
  exists y, shows c i (result_of_npv y) /\ finite y /\ Rabs (value y - exact) <= Rabs exact * (3 / 2 ^ 24) + / 2 ^ 118.
Proof using H NP.
  intros uc x u f rate K U1 F1 R1 US P1 P2 exact. destruct (c204_fx_futures uc x K) as (u' & f' & rate' & y & U1' & F1' & R1' & R & SH & _).
  assert (u' = u) by exact (curve_for_one _ _ _ _ U1' U1). assert (f' = f) by exact (curve_for_one _ _ _ _ F1' F1). assert (E : Some rate' = Some rate) by exact (rate_for_one _ _ _ _ R1' R1). apply some_inj in E. subst u' f' rate'.
  destruct (c164_npv eval u f rate (fx_future_of de i uc x) US P1 P2) as (z & r & E & FZ & V & _). assert (y = z) by congruence. subst y. exists z. split; [exact SH|]. split; [exact FZ|exact V].
Qed.
(** a bond: what its coming cash flows are worth on its issuer's curve *)
Theorem c205_bond : forall issuer t r x disc fwd past m, in_kind i = KBond issuer t r x -> curve_for se (mp_bond (se_match se) (issuer, t, r, ccy i)) disc -> index_for se x fwd past -> 
  let pricing := pricing_of (de_bond de i) eval in
  cashflows f_ln (de_bond de i) eval pricing fwd past = Ret (ROk m) -> Forall (good_flow eval disc pricing) m -> priced eval disc pricing -> (Z.of_nat (length (future pricing m)) <= 1048576)%Z ->
  let n := INR (length (future pricing m)) in let F := factor_on eval disc in
  exists res o, iterates o /\ shows c i res /\ finite (nr_npv res) /\
    Rabs (value (nr_npv res) - present_value F (future pricing m) / F pricing) <= present_size F (future pricing m) / F pricing * ((n + 2) / 2 ^ 23) + (n + 1) / 2 ^ 120 /\
    nr_amounts res = numbered 0 (o m) /\ nr_probs res = numbered 0 (map (fun p => (fst p, gof_Z 1)) (o m)).
Proof using H NP IT.
  intros issuer t r x disc fwd past m K C1 X1 pricing CF G P N n F. destruct (c204_bond issuer t r x K) as (disc' & fwd' & past' & res & o & IO & C1' & X1' & R & SH & _).
  assert (disc' = disc) by exact (curve_for_one _ _ _ _ C1' C1). destruct (index_for_one _ _ _ _ _ _ X1' X1) as [-> ->]. subst disc'.
  destruct (c147_value f_ln o eval disc fwd past (de_bond de i) m IO CF G P N) as (y & E & FY & V). destruct (c148_items f_ln o eval disc fwd past (de_bond de i) IO) as [A _]. pose proof (A m y CF E) as RR. clear A. assert (QQ : res = NpvResult y (numbered 0 (o m)) (numbered 0 (map (fun p => (fst p, gof_Z 1)) (o m)))) by congruence.
  exists res, o. split; [exact IO|]. split; [exact SH|]. rewrite QQ. cbn [nr_npv nr_amounts nr_probs]. split; [exact FY|]. split; [exact V|]. auto.
Qed.
(** a swap: its fixed side and, at the rate of exchange, its floating side *)
Theorem c205_swap : forall t fc x fx d1 d2 fwd past rate m1 m2, in_kind i = KSwap t fc x fx -> curve_for se (mp_crs (se_match se) (ccy i)) d1 -> curve_for se (mp_crs (se_match se) fc) d2 -> index_for se x fwd past -> rate_for se fx rate ->
  fixed_cashflows (de_swap de i) eval = Ret (ROk m1) -> float_cashflows f_ln (de_swap de i) eval eval fwd past = Ret (ROk m2) ->
  Forall (good_flow eval d1 eval) m1 -> Forall (good_flow eval d2 eval) m2 -> (Z.of_nat (length (future eval m1)) <= 1048576)%Z -> (Z.of_nat (length (future eval m2)) <= 1048576)%Z -> (rate = None \/ exists x, rate = Some x /\ usual x) ->
  let n1 := INR (length (future eval m1)) in let n2 := INR (length (future eval m2)) in let F1 := factor_on eval d1 in let F2 := factor_on eval d2 in
  let R := match rate with Some x => value x | None => 1 end in
  exists res, shows c i res /\ finite (nr_npv res) /\
    Rabs (value (nr_npv res) - (present_value F1 (future eval m1) + R * present_value F2 (future eval m2))) <=
      present_size F1 (future eval m1) * ((n1 + 2) / 2 ^ 23) + Rabs R * present_size F2 (future eval m2) * ((n2 + 3) / 2 ^ 23) + (n1 + n2 + 1) / 2 ^ 116.
Proof using H NP IT.
  intros t fc x fx d1 d2 fwd past rate m1 m2 K C1 C2 X1 R1 E1 E2 G1 G2 N1 N2 HX n1 n2 F1 F2 R. destruct (c204_swap t fc x fx K) as (d1' & d2' & fwd' & past' & rate' & res & o1 & o2 & I1 & I2 & C1' & C2' & X1' & R1' & RR & SH & _).
  assert (d1' = d1) by exact (curve_for_one _ _ _ _ C1' C1). assert (d2' = d2) by exact (curve_for_one _ _ _ _ C2' C2). destruct (index_for_one _ _ _ _ _ _ X1' X1) as [-> ->]. assert (rate' = rate) by exact (rate_for_one _ _ _ _ R1' R1). subst d1' d2' rate'.
  destruct (c159_value f_ln o1 o2 eval d1 d2 fwd past rate (de_swap de i) m1 m2 I1 I2 E1 E2 G1 G2 N1 N2 HX) as (y & E & FY & V). destruct (c160_items f_ln o1 o2 eval d1 d2 fwd past rate (de_swap de i) I1 I2) as [A _]. pose proof (A m1 m2 y E1 E2 E) as Q. clear A. cbn zeta in Q. assert (QQ : nr_npv res = y) by (assert (res = _) as -> by (apply rok_inj, ret_inj; rewrite <- RR; exact Q); reflexivity).
  exists res. split; [exact SH|]. rewrite QQ. split; [exact FY|exact V].
Qed.
(** an option without a quanto, of constant volatility, on a surface that is tame (see
    C177): the discounted value of Black's formula *)
Theorem c205_option : forall ty u uc q fund coll borrow s dv F t vol s0 fwds M, in_kind i = KOption ty u uc false q -> uc = ccy i ->
  curve_for se (mp_funding (se_match se) (ccy i)) fund -> curve_for se (mp_collateral (se_match se) u) coll -> curve_for se (mp_borrowing (se_match se) u) borrow -> stock_for se u s dv -> da_const_vol (se_data se) u = Some vol ->
  let e := VolEnv eval coll borrow s dv in with_constant_volatility e (se_sticky se) vol (cf_vega_tenors (se_config se)) (cf_moneyness (se_config se)) = Ret (ROk s0) -> tame s0 fwds M -> forwards e (sticky_spot e s0) s0 fwds ->
  good_ln f_ln -> good_cdf f_cdf -> fair_forward eval coll borrow s dv (in_maturity i) = Ret (ROk F) -> level_ok F -> level_ok (de_strike de i) -> / 2 ^ 20 <= value (de_strike de i) / value F <= 2 ^ 20 ->
  priced eval fund (in_maturity i) -> finite vol -> / 2 ^ 10 <= value vol <= 16 -> get_time_difference eval (in_maturity i) = Ret t -> finite t -> / 2 ^ 20 <= value t <= 128 ->
  let D := factor_on eval fund (in_maturity i) in let K := value (de_strike de i) in let sd := value vol * sqrt (value t) in
  exists x, shows c i (result_of_npv x) /\ finite x /\ Rabs (value x - D * black_value ty (value F) K sd) <= black_error D (value F) K sd.
Proof using H NP.
  intros ty u uc q fund coll borrow s dv F t vol s0 fwds M K UC A1 C1 B1 S1 CV e WC TM FW GL GC EF LF LK R P FV BV ET FT BT D K0 sd.
  destruct (c204_option ty u uc q K) as (fund' & coll' & borrow' & s' & dv' & f & qv & x & A1' & C1' & B1' & S1' & SF & QF & X & SH & _).
  assert (fund' = fund) by exact (curve_for_one _ _ _ _ A1' A1). assert (coll' = coll) by exact (curve_for_one _ _ _ _ C1' C1). assert (borrow' = borrow) by exact (curve_for_one _ _ _ _ B1' B1). destruct (stock_for_one _ _ _ _ _ _ S1' S1) as [-> ->]. subst fund' coll' borrow'.
  assert (QN : qv = None) by exact (proj1 QF UC). subst qv. destruct SF as (e' & SC & SB & SE & SS & (z & VB & VC)). assert (EE : e' = e) by (refine (env_for_one se u e' e SC SB SE SS _ _ _ _); assumption || reflexivity). subst e'.
  unfold d in VC. rewrite CV in VC. assert (z = s0) by congruence. subst z.
  destruct (c167_value f_ln f_cdf eval coll borrow fund s dv vol (option_of de i ty uc q) F t GL GC EF LF LK R P (eq_sym UC) FV BV ET FT BT) as (y & Y & FY & V).
  assert (FX : finite (gdiv (de_strike de i) F)).
  { destruct LF as [FF BF]. destruct LK as [FK BK]. destruct (div_err (de_strike de i) F (value (de_strike de i)) (value F) (conj FK eq_refl) (conj FF eq_refl)) as (v & d1 & t1 & [FD _] & _); [lra| |exact FD]. apply two100_127. assert (P20 : 2 ^ 20 = 1048576) by (rewrite pow_IZR; reflexivity). rewrite P20 in R. assert (0 < / 1048576) by lra. rewrite Rabs_pos_eq by lra. unfold two100. lra. }
  pose proof (c177_option f_ln f_cdf e (se_sticky se) vol _ _ s0 f fwds M fund dv None (option_of de i ty uc q) F t WC TM FW VB) as Q. cbn [ve_eval ve_coll ve_borrow ve_price e] in Q. rewrite Q in X; [|intro Z; rewrite Z in BV; assert (0 < / 2 ^ 10) by (apply Rinv_0_lt_compat, pow_lt; lra); lra|exact FV|exact EF|exact FX|exact ET|exact FT].
  assert (x = y) by congruence. subst y. exists x. split; [exact SH|]. split; [exact FY|exact V].
Qed.

(** ** Delta and gamma *)
(** C208: delta of a futures or stock is one percent of its price for the whole position *)
Theorem c208_linear : (match in_kind i with KFutures _ _ | KStock _ => True | _ => False end) -> cf_delta (se_config se) = true -> exists res, shows c i res /\ ca_greek c Delta (code i) = Some (gmul (gmul (nr_npv res) pct) (notional i)) /\ ca_greek c Gamma (code i) = Some (gof_Z 0).
Proof using H NP.
  intros LK DE. assert (LI : linear i) by (unfold linear, type_name; destruct (in_kind i); try contradiction LK; auto). destruct H as (is & r & M & N & D & I & E). destruct (in_engine _ se is r i M N I) as (sh & l & w & cx & s & s' & L & C & W & R & E1 & G & F & P & K).
  destruct (c182_value cx (ld_market l) s s' W) with (i := i) as (x & fl & (p & Q & V) & _ & c' & X & U & A & B & _); [rewrite G; exact N|rewrite G; exact K|rewrite F; exact NP|exact R|rewrite G; exact I|].
  destruct (c184_calculated cx (ld_market l) s s' W) with (i := i) as (res & (p' & Q' & V') & Y & _); [rewrite G; exact N|rewrite G; exact K|rewrite F; exact NP|rewrite F; exact DE|exact R|rewrite G; exact I|].
  assert (res = x) by congruence. subst res. assert (c' = c) by congruence. subst c'. destruct (Y LI) as [(c1 & X1 & Y1) (c2 & X2 & Y2)]. assert (c1 = c) by congruence. assert (c2 = c) by congruence. subst c1 c2. exists x. split; [split; [exact U|split; [exact A|exact B]]|]. split; [exact Y1|exact Y2].
Qed.
(** delta and gamma of an option are differences of the option's own formula at the
    price of the underlying moved up and down by the ratio, on the same surface, curves and
    dividends *)
Theorem c208_option : forall ty u uc q, in_kind i = KOption ty u uc false q -> cf_delta (se_config se) = true ->
  exists fund coll borrow s dv f qv up mid down, 
  curve_for se (mp_funding (se_match se) (ccy i)) fund /\ curve_for se (mp_collateral (se_match se) u) coll /\ curve_for se (mp_borrowing (se_match se) u) borrow /\ stock_for se u s dv /\ surface_for se u f /\ quanto_for se i u uc qv /\
  let price spot := option_npv f_ln f_cdf eval coll borrow fund spot dv (surface_vol f) qv (option_of de i ty uc q) in let h := cf_delta_ratio (se_config se) in
  price s = Ret (ROk mid) /\ price (gmul s (gadd (gof_Z 1) h)) = Ret (ROk up) /\ price (gmul s (gsub (gof_Z 1) h)) = Ret (ROk down) /\ shows c i (result_of_npv mid) /\
  ca_greek c Delta u = Some (bump_delta up down h (notional i)) /\ ca_greek c Gamma u = Some (bump_gamma up mid down h (notional i)).
Proof using H NP.
  intros ty u uc q KI DE. assert (UI : In u (underlyings i)) by (unfold underlyings; rewrite KI; left; reflexivity). assert (NL : ~ linear i) by (unfold linear, type_name; rewrite KI; destruct ty; intros [Q|Q]; discriminate Q). destruct H as (is & r & M & N & D & I & E). destruct (in_engine _ se is r i M N I) as (sh & l & w & cx & s & s' & L & C & W & R & E1 & G & F & P & K).
  destruct (c182_value cx (ld_market l) s s' W) with (i := i) as (x & fl & (p & Q & V) & _ & c' & X & U & A & B & _); [rewrite G; exact N|rewrite G; exact K|rewrite F; exact NP|exact R|rewrite G; exact I|].
  destruct (c184_calculated cx (ld_market l) s s' W) with (i := i) as (res & (p' & Q' & V') & _ & Y); [rewrite G; exact N|rewrite G; exact K|rewrite F; exact NP|rewrite F; exact DE|exact R|rewrite G; exact I|].
  assert (res = x) by congruence. subst res. assert (c' = c) by congruence. subst c'. destruct (Y NL u UI) as (mp1 & up & down & mu & md & EQ & PU & PD & (p1 & O1 & T1) & (p2 & O2 & T2) & (c1 & X1 & Y1) & (c2 & X2 & Y2)). assert (c1 = c) by congruence. assert (c2 = c) by congruence. subst c1 c2.
  rewrite F in *. rewrite P in Q, Q', O1, O2. apply some_inj in Q, Q', O1, O2. subst p p' p1 p2. cbn [pricer_of pr_result pr_npv] in *. clear V'.
  destruct (shifted_it se sh is l i w ty u uc q L D I C KI) as (fund & coll & borrow & sp & dv & f & qv & A1 & C1 & B1 & S1 & SF & QF & EP & (e0 & VW) & SET). rewrite EQ in EP. cbn [option_map] in EP. apply some_inj in EP. rewrite EP in PU, PD.
  destruct (SET _ _ PU) as (eu & VU). destruct (SET _ _ PD) as (ed & VD). rewrite VW in V. rewrite VU in T1. rewrite VD in T2. unfold library in V, T1, T2. cbn [fo_result fo_npv] in V, T1, T2. unfold real_result in V. unfold real_npv in T1, T2. rewrite KI in V, T1, T2. cbn [vw_curves vw_equity vw_date vw_vol vw_quanto] in V, T1, T2. unfold option_result in V.
  apply QLoadProofs.rbind_ok in V. destruct V as (mid & V1 & V2). apply ret_inj, rok_inj in V2. subst x.
  exists fund, coll, borrow, sp, dv, f, qv, up, mid, down. do 6 (split; [assumption|]). cbv zeta. split; [exact V1|]. split; [exact T1|]. split; [exact T2|]. split; [split; [exact U|split; [exact A|exact B]]|]. split; [exact Y1|exact Y2].
Qed.
End Library.

(** ** Call, put and futures *)
Open Scope R_scope.
(** C206: put-call parity between reports: of a call, a put of the same terms, and a
    futures of the same underlying and maturity, wherever each was calculated *)
Theorem c206_parity : forall f_ln f_cdf de su se ic ip ifu cc cp cf u us uc uc' q fund xc xf, good_cdf f_cdf -> cf_npv (se_config se) = true ->
  reported_by (library f_ln f_cdf de su) se ic cc -> reported_by (library f_ln f_cdf de su) se ip cp -> reported_by (library f_ln f_cdf de su) se ifu cf ->
  in_kind ic = KOption Call u uc false q -> in_kind ip = KOption Put u uc false q -> in_kind ifu = KFutures (u :: us) uc' -> in_maturity ip = in_maturity ic -> in_maturity ifu = in_maturity ic -> ccy ip = ccy ic -> de_strike de ip = de_strike de ic ->
  curve_for se (mp_funding (se_match se) (ccy ic)) fund -> priced (se_eval se) fund (in_maturity ic) -> level_ok (de_strike de ic) -> ca_npv cc = Some (result_of_npv xc) -> finite xc -> ca_npv cf = Some (result_of_npv xf) -> level_ok xf ->
  let D := factor_on (se_eval se) fund (in_maturity ic) in let K := value (de_strike de ic) in
  exists xp, ca_npv cp = Some (result_of_npv xp) /\ finite xp /\ Rabs ((value xc - value xp) - D * (value xf - K)) <= D * (value xf + K) * (10 / 2 ^ 24) + / 2 ^ 117.
Proof.
  intros f_ln f_cdf de su se ic ip ifu cc cp cf u us uc uc' q fund xc xf GC NP RC RP RF KC KP KF MP MF CP SP A1 PR LK NC FC NF LF D K.
  destruct (c204_option f_ln f_cdf de su se ic cc RC NP Call u uc q KC) as (fund1 & coll1 & borrow1 & s1 & dv1 & f1 & q1 & x1 & F1 & C1 & B1 & S1 & V1 & Q1 & X1 & SH1 & _).
  destruct (c204_option f_ln f_cdf de su se ip cp RP NP Put u uc q KP) as (fund2 & coll2 & borrow2 & s2 & dv2 & f2 & q2 & x2 & F2 & C2 & B2 & S2 & V2 & Q2 & X2 & SH2 & _).
  destruct (c204_futures f_ln f_cdf de su se ifu cf RF NP u us uc' KF) as (coll3 & borrow3 & s3 & dv3 & x3 & C3 & B3 & S3 & X3 & SH3 & _).
  rewrite CP in F2. assert (fund1 = fund) by exact (curve_for_one _ _ _ _ F1 A1). assert (fund2 = fund) by exact (curve_for_one _ _ _ _ F2 A1). assert (coll2 = coll1) by exact (curve_for_one _ _ _ _ C2 C1). assert (borrow2 = borrow1) by exact (curve_for_one _ _ _ _ B2 B1). assert (coll3 = coll1) by exact (curve_for_one _ _ _ _ C3 C1). assert (borrow3 = borrow1) by exact (curve_for_one _ _ _ _ B3 B1).
  destruct (stock_for_one _ _ _ _ _ _ S2 S1) as [-> ->]. destruct (stock_for_one _ _ _ _ _ _ S3 S1) as [-> ->]. assert (f2 = f1) by exact (surface_for_one _ _ _ _ V2 V1). assert (q2 = q1). { unfold quanto_for in Q1, Q2. rewrite CP in Q2. exact (quanto_for_one se ic u uc q2 q1 Q2 Q1). }
  subst fund1 fund2 coll2 borrow2 coll3 borrow3 f2 q2. destruct SH1 as (_ & N1 & _). destruct SH2 as (_ & N2 & _). destruct SH3 as (_ & N3 & _).
  assert (x1 = xc). { rewrite N1 in NC. apply some_inj in NC. unfold result_of_npv in NC. congruence. } assert (x3 = xf). { rewrite N3 in NF. apply some_inj in NF. unfold result_of_npv in NF. congruence. } subst x1 x3. exists x2. split; [exact N2|].
  unfold futures_npv in X3. cbn [future_of fu_maturity] in X3. rewrite MF in X3.
  assert (XP : option_npv f_ln f_cdf (se_eval se) coll1 borrow1 fund s1 dv1 (surface_vol f1) q1 (as_type Put (option_of de ic Call uc q)) = Ret (ROk x2)).
  { rewrite <- X2. unfold as_type, option_of. cbn [vo_strike vo_notional vo_maturity vo_und_ccy vo_ccy vo_quanto_fx]. unfold ccy in CP. rewrite SP, MP, CP. reflexivity. }
  destruct (c166_parity f_ln f_cdf (se_eval se) coll1 borrow1 fund s1 dv1 (surface_vol f1) q1 (option_of de ic Call uc q) xf xc x2 GC X3 LF LK PR X1 XP FC) as (FP & B & _). split; [exact FP|exact B].
Qed.

(** ** Orders of iteration *)
(** C207: what goes through no map is reported the same, to the bit, whatever the orders *)
Theorem c207_same : forall f_ln f_cdf de su1 su2 se i c1 c2, no_map i -> cf_npv (se_config se) = true -> reported_by (library f_ln f_cdf de su1) se i c1 -> reported_by (library f_ln f_cdf de su2) se i c2 ->
  ca_npv c1 = ca_npv c2 /\ ca_value c1 = ca_value c2 /\ (cf_delta (se_config se) = true -> same_deltas i c1 c2).
Proof.
  intros f_ln f_cdf de su1 su2 se i c1 c2 NM NP (is1 & r1 & M1 & N1 & D1 & I1 & E1) (is2 & r2 & M2 & N2 & D2 & I2 & E2).
  assert (SA : forall v, fo_npv (library f_ln f_cdf de su1) v i = fo_npv (library f_ln f_cdf de su2) v i) by (intro v; cbn; unfold real_npv; unfold no_map in NM; destruct (in_kind i); (reflexivity || contradiction NM)).
  assert (SB : forall v, fo_result (library f_ln f_cdf de su1) v i = fo_result (library f_ln f_cdf de su2) v i) by (intro v; cbn; unfold real_result; unfold no_map in NM; destruct (in_kind i); (reflexivity || contradiction NM)).
  destruct (c200_value _ _ se is1 is2 r1 r2 i SA SB M1 M2 N1 N2 D1 D2 I1 I2 NP) as (b1 & b2 & B1 & B2 & B3). assert (b1 = c1) by congruence. assert (b2 = c2) by congruence. subst b1 b2.
  destruct B3 as (Q1 & Q2 & Q3). split; [assumption|]. split; [assumption|]. intro DE. destruct (c200_delta _ _ se is1 is2 r1 r2 i SA SB M1 M2 N1 N2 D1 D2 I1 I2 NP DE) as (b1 & b2 & B1' & B2' & B3'). assert (b1 = c1) by congruence. assert (b2 = c2) by congruence. subst b1 b2. exact B3'.
Qed.
(** two reports of a bond differ by rounding only *)
Theorem c207_bond : forall f_ln f_cdf de su1 su2 se i c1 c2 issuer t r x disc fwd past m, (forall k b v j, iterates (su1 k b v j)) -> (forall k b v j, iterates (su2 k b v j)) -> cf_npv (se_config se) = true ->
  reported_by (library f_ln f_cdf de su1) se i c1 -> reported_by (library f_ln f_cdf de su2) se i c2 -> in_kind i = KBond issuer t r x -> curve_for se (mp_bond (se_match se) (issuer, t, r, ccy i)) disc -> index_for se x fwd past ->
  let pricing := pricing_of (de_bond de i) (se_eval se) in cashflows f_ln (de_bond de i) (se_eval se) pricing fwd past = Ret (ROk m) -> Forall (good_flow (se_eval se) disc pricing) m -> priced (se_eval se) disc pricing -> (Z.of_nat (length (future pricing m)) <= 1048576)%Z ->
  let n := INR (length (future pricing m)) in let F := factor_on (se_eval se) disc in
  exists r1 r2, ca_npv c1 = Some r1 /\ ca_npv c2 = Some r2 /\ Rabs (value (nr_npv r1) - value (nr_npv r2)) <= present_size F (future pricing m) / F pricing * ((n + 2) / 2 ^ 22) + (n + 1) / 2 ^ 119.
Proof.
  intros f_ln f_cdf de su1 su2 se i c1 c2 issuer t r x disc fwd past m IT1 IT2 NP R1 R2 K C X pricing CF G P N n F.
  destruct (c204_bond f_ln f_cdf de su1 se i c1 R1 NP IT1 issuer t r x K) as (d1 & f1 & p1 & res1 & o1 & IO1 & A1 & B1 & E1 & (_ & S1 & _) & _). destruct (c204_bond f_ln f_cdf de su2 se i c2 R2 NP IT2 issuer t r x K) as (d2 & f2 & p2 & res2 & o2 & IO2 & A2 & B2 & E2 & (_ & S2 & _) & _).
  assert (d1 = disc) by exact (curve_for_one _ _ _ _ A1 C). assert (d2 = disc) by exact (curve_for_one _ _ _ _ A2 C). destruct (index_for_one _ _ _ _ _ _ B1 X) as [-> ->]. destruct (index_for_one _ _ _ _ _ _ B2 X) as [-> ->]. subst d1 d2.
  destruct (c147_orders f_ln o1 o2 (se_eval se) disc fwd past (de_bond de i) m IO1 IO2 CF G P N) as (y1 & y2 & Y1 & Y2 & B). exists res1, res2. split; [exact S1|]. split; [exact S2|].
  destruct (c148_items f_ln o1 (se_eval se) disc fwd past (de_bond de i) IO1) as [T1 _]. destruct (c148_items f_ln o2 (se_eval se) disc fwd past (de_bond de i) IO2) as [T2 _]. pose proof (T1 m y1 CF Y1) as U1. pose proof (T2 m y2 CF Y2) as U2. rewrite E1 in U1. rewrite E2 in U2. apply ret_inj, rok_inj in U1, U2. rewrite U1, U2. exact B.
Qed.


(** ** Examples: curves of rate zero *)
Definition ex_one : f32 -> f32 := fun _ => gof_Z 1.
Definition ex_rates : fx_code -> option f32 := fun x => if ccy_eqb (fx_one x) Ccy_USD then Some (gof_Z 1300) else None.
Definition ex_names : match_parameter := MatchParameter (fun _ => Some "c"%string) (fun u => Some u) (fun _ => Some "k"%string) (fun _ => Some "i"%string) (fun _ => Some "x"%string) (fun _ => Some "f"%string).
Definition ex_market : data := Data ex_rates (fun u => if String.eqb u "a" then Some (gof_Z 100) else None) (fun _ => Some zero_data) (fun _ => None) (fun _ => Some sixteenth) (fun _ => None) (fun _ => None) (fun _ => None) (fun _ => None).
Definition ex_asks (delta : bool) : config := Config true true delta delta false false false false false false false false (gdiv (gof_Z 1) (gof_Z 4)) (gdiv (gof_Z 1) (gof_Z 4)) pct pct pct bp bp 5 [] ex_tenors [] ex_money.
Definition ex_whole : setup := Setup ex_eval (ex_asks true) StickyToStrike true ex_names ex_market ex_one.
Definition ex_inst (ty name : string) (k : kind) : instrument := Inst ty name Ccy_KRW (gof_Z 10) ex_maturity k.
Definition ex_call : instrument := ex_inst "option" "C1" (KOption Call "a" Ccy_KRW false None).
Definition ex_put : instrument := ex_inst "option" "P1" (KOption Put "a" Ccy_KRW false None).
Definition ex_fut : instrument := ex_inst "futures" "F1" (KFutures ["a"%string] Ccy_KRW).
Definition ex_paper : instrument := ex_inst "bond" "B1" (KBond "ktb" 1 1 None).
Definition ex_share : instrument := ex_inst "stock" "a" (KStock "a").
Definition ex_note : instrument := ex_inst "cash" "" KCash.
Definition ex_fxf : instrument := ex_inst "fxfutures" "X1" (KFxFutures Ccy_USD (FxCode Ccy_USD Ccy_KRW)).
Definition ex_fwd : instrument := ex_inst "swap" "W1" (KSwap FxForward Ccy_USD None (Some (FxCode Ccy_USD Ccy_KRW))).
Definition ex_all : list instrument := [ex_call; ex_put; ex_fut; ex_paper; ex_share; ex_note; ex_fxf; ex_fwd].
Definition ex_fields (b : bond) : details := Details (fun _ => gof_Z 90) (fun _ => gof_Z 90) (fun _ => b) (fun _ => ex_forward).
Definition ex_as_is : sums := fun _ _ _ _ l => l.
Definition ex_reverse : sums := fun _ _ _ _ l => rev l.
Definition ex_run (f_ln f_cdf : f32 -> f32) (b : bond) (su : sums) (se : setup) (is : list instrument) : outcome (rresult (string -> option calc)) := group_run (library f_ln f_cdf (ex_fields b) su) se (ex_orders (map code is)) is.
Definition ex_reports (r : outcome (rresult (string -> option calc))) (is : list instrument) : bool := match r with Ret (ROk r) => forallb (fun i => match r (code i) with Some c => match ca_npv c with Some _ => true | None => false end | None => false end) is | _ => false end.
Lemma ex_reports_ok : forall r is i, ex_reports r is = true -> In i is -> exists rs c x, r = Ret (ROk rs) /\ rs (code i) = Some c /\ ca_npv c = Some x.
Proof.
  intros [[r|]| |] is i H I; try discriminate H. cbn in H. rewrite forallb_forall in H. specialize (H i I). destruct (r (code i)) as [c|] eqn:E; [|discriminate H]. destruct (ca_npv c) as [x|] eqn:N; [|discriminate H]. exists r, c, x. auto.
Qed.
Lemma ex_reported : forall f_ln f_cdf b su se is i, NoDup (map code is) -> (forall u, da_div (se_data se) u = None) -> ~ asked is dummy -> ex_reports (ex_run f_ln f_cdf b su se is) is = true -> In i is ->
  exists c x, reported_by (library f_ln f_cdf (ex_fields b) su) se i c /\ ca_npv c = Some x.
Proof.
  intros f_ln f_cdf b su se is i ND DV NA H I. destruct (ex_reports_ok _ _ _ H I) as (rs & c & x & R & C & X). exists c, x. split; [|exact X]. exists is, rs. split; [|auto]. exists (ex_orders (map code is)). split; [|exact R].
  split; cbn; try reflexivity; [split; [exact ND|reflexivity]|]. split; [constructor|]. intro u. split; [intros []|]. intros (_ & Q). exact (Q (DV u)).
Qed.
Lemma ex_all_codes : NoDup (map code ex_all). Proof. repeat constructor; cbn; intuition discriminate. Qed.
Lemma ex_all_asked : ~ asked ex_all dummy.
Proof. intros (i & I & U). cbn [ex_all In] in I. repeat (destruct I as [<-|I]; [cbn in U; intuition discriminate|]). contradiction I. Qed.
(** everything in the portfolio is reported, with any routines for ln and the normal
    distribution *)
Lemma ex_everything : forall f_ln f_cdf su i, su = ex_as_is \/ su = ex_reverse -> In i ex_all -> exists c x, reported_by (library f_ln f_cdf (ex_fields QBondPriceProps.ex_fixed) su) ex_whole i c /\ ca_npv c = Some x.
Proof.
  intros f_ln f_cdf su i SU I. apply (ex_reported _ _ _ _ _ ex_all); [exact ex_all_codes|reflexivity|exact ex_all_asked| |exact I]. destruct SU as [->| ->]; vm_compute; reflexivity.
Qed.
Lemma ex_as_is_ok : forall k b v j, iterates (ex_as_is k b v j). Proof. intros k b v j l. apply Permutation_refl. Qed.
Lemma ex_reverse_ok : forall k b v j, iterates (ex_reverse k b v j). Proof. intros k b v j l. apply Permutation_sym, Permutation_rev. Qed.
Example c204_hypotheses_met : exists f_cdf, good_cdf f_cdf /\ (forall k b v j, iterates (ex_as_is k b v j)) /\ cf_npv (se_config ex_whole) = true /\ cf_fx (se_config ex_whole) = true /\
  forall i, In i ex_all -> exists c x, reported_by (library an_ln f_cdf (ex_fields QBondPriceProps.ex_fixed) ex_as_is) ex_whole i c /\ ca_npv c = Some x.
Proof.
  exists an_cdf. split; [exact an_cdf_good|]. split; [exact ex_as_is_ok|]. split; [reflexivity|]. split; [reflexivity|]. intros i I. exact (ex_everything an_ln an_cdf ex_as_is i (or_introl eq_refl) I).
Qed.
(** the curve: factors of one *)
Definition flat_at (d : odt) : bool := match curve_new ex_one ex_eval zero_data with Ret (ROk c) => match discount_at ex_eval c d with Ret (ROk y) => is_finite y && geq y (gof_Z 1) | _ => false end | _ => false end.
Lemma ex_flat_curve : exists c, curve_new ex_one ex_eval zero_data = Ret (ROk c) /\ (forall n, curve_for ex_whole (Some n) c) /\ forall d, flat_at d = true -> priced ex_eval c d.
Proof.
  assert (K : forall r : outcome (rresult curve), match r with Ret (ROk _) => true | _ => false end = true -> exists c, r = Ret (ROk c)) by (intros [[c|]| |] Q; try discriminate Q; exists c; reflexivity).
  destruct (K (curve_new ex_one ex_eval zero_data) ltac:(vm_compute; reflexivity)) as [c C]. exists c. split; [exact C|]. split; [intro n; exists n; split; [reflexivity|]; exists zero_data; split; [reflexivity|exact C]|].
  intros d T. unfold flat_at in T. rewrite C in T. destruct (discount_at ex_eval c d) as [[y|]| |] eqn:E; try discriminate T. apply andb_prop in T. destruct T as [F G]. exists y. split; [exact E|]. split; [exact F|].
  apply (proj1 (fin_eq 24 128 _ _ _ _ (conj F eq_refl) one_fn)) in G. unfold value. rewrite G. rewrite p20. lra.
Qed.
Definition flows_flat (r : outcome (rresult (list (odt * f32)))) (pricing : odt) (n : nat) : bool :=
  match r with Ret (ROk m) => forallb (fun p => is_finite (snd p) && gle (gneg (gof_Z 2000)) (snd p) && gle (snd p) (gof_Z 2000) && flat_at (fst p)) m && (length (future pricing m) =? n)%nat | _ => false end.
Lemma flows_flat_ok : forall r c pricing n, (forall d, flat_at d = true -> priced ex_eval c d) -> flows_flat r pricing n = true -> exists m, r = Ret (ROk m) /\ Forall (good_flow ex_eval c pricing) m /\ length (future pricing m) = n.
Proof.
  intros [[m|]| |] c pricing n P G; try discriminate G. exists m. split; [reflexivity|]. unfold flows_flat in G. apply andb_true_iff in G. destruct G as [G L]. apply Nat.eqb_eq in L. rewrite forallb_forall in G. split; [|exact L].
  apply List.Forall_forall. intros p I. specialize (G p I). apply andb_true_iff in G. destruct G as [G T]. apply andb_true_iff in G. destruct G as [G G2]. apply andb_true_iff in G. destruct G as [F G1].
  destruct (small_fin 2000 ltac:(lia)) as [F2 R2]. unfold real_of in R2. destruct (fin_neg 24 128 (gof_Z 2000) _ (conj F2 eq_refl)) as [F3 R3]. rewrite R2 in R3.
  apply (proj1 (fin_le 24 128 _ _ _ _ (conj F3 R3) (conj F eq_refl))) in G1. apply (proj1 (fin_le 24 128 _ _ _ _ (conj F eq_refl) (conj F2 R2))) in G2.
  split; [exact F|]. split; [unfold value; rewrite p30; apply Rabs_le; lra|]. intros _. exact (P _ T).
Qed.
Example c205_hypotheses_met : exists c q m m1 m2, (forall n, curve_for ex_whole (Some n) c) /\ stock_for ex_whole "a" (gof_Z 100) None /\ usual (gof_Z 100) /\ priced ex_eval c ex_maturity /\ price_deduction_ratio None ex_maturity = Ret (ROk q) /\ finite q /\ Rabs (value q) <= 2 ^ 10 /\
  rate_for ex_whole (Some (FxCode Ccy_USD Ccy_KRW)) (Some (gof_Z 1300)) /\ usual (gof_Z 1300) /\ index_for ex_whole None None None /\
  cashflows an_ln QBondPriceProps.ex_fixed ex_eval (pricing_of QBondPriceProps.ex_fixed ex_eval) None None = Ret (ROk m) /\ Forall (good_flow ex_eval c (pricing_of QBondPriceProps.ex_fixed ex_eval)) m /\ priced ex_eval c (pricing_of QBondPriceProps.ex_fixed ex_eval) /\ length (future (pricing_of QBondPriceProps.ex_fixed ex_eval) m) = 2%nat /\
  fixed_cashflows ex_forward ex_eval = Ret (ROk m1) /\ float_cashflows an_ln ex_forward ex_eval ex_eval None None = Ret (ROk m2) /\ Forall (good_flow ex_eval c ex_eval) m1 /\ Forall (good_flow ex_eval c ex_eval) m2 /\ length (future ex_eval m1) = 1%nat /\ length (future ex_eval m2) = 1%nat.
Proof.
  destruct ex_flat_curve as (c & C & CF & P). destruct one_fn as [F1 V1]. fold (value (gof_Z 1)) in V1.
  destruct (flows_flat_ok (cashflows an_ln QBondPriceProps.ex_fixed ex_eval (pricing_of QBondPriceProps.ex_fixed ex_eval) None None) c (pricing_of QBondPriceProps.ex_fixed ex_eval) 2 P) as (m & M1 & M2 & M3); [generalize an_ln; intro f; vm_compute; reflexivity|].
  destruct (flows_flat_ok (fixed_cashflows ex_forward ex_eval) c ex_eval 1 P) as (m1 & A1 & A2 & A3); [vm_compute; reflexivity|].
  destruct (flows_flat_ok (float_cashflows an_ln ex_forward ex_eval ex_eval None None) c ex_eval 1 P) as (m2 & B1 & B2 & B3); [generalize an_ln; intro f; vm_compute; reflexivity|].
  exists c, (gof_Z 1), m, m1, m2. split; [exact CF|]. split; [split; reflexivity|]. split; [apply hundred_usual; lia|]. split; [apply P; vm_compute; reflexivity|]. split; [apply c124_none|]. split; [exact F1|]. split; [rewrite V1, Rabs_R1, p10; lra|].
  split; [exists (gof_Z 1300); split; reflexivity|]. split; [|split; [split; reflexivity|]]. { destruct (small_fin 1300 ltac:(lia)) as [F13 R13]. split; [exact F13|]. unfold value, real_of in *. rewrite R13, p30, Rabs_pos_eq; lra. }
  split; [exact M1|]. split; [exact M2|]. split; [apply P; vm_compute; reflexivity|]. split; [exact M3|]. do 5 (split; [assumption|]). assumption.
Qed.
(** the surface of the portfolio's options *)
Lemma ex_flat_surface : forall c, (forall d, flat_at d = true -> priced ex_eval c d) -> curve_new ex_one ex_eval zero_data = Ret (ROk c) -> exists s fwds, with_constant_volatility (ex_env c) StickyToStrike sixteenth ex_tenors ex_money = Ret (ROk s) /\ tame s fwds 1 /\ forwards (ex_env c) (sticky_spot (ex_env c) s) s fwds.
Proof.
  intros c P C.
  assert (W : match with_constant_volatility (ex_env c) StickyToStrike sixteenth ex_tenors ex_money with Ret (ROk s) => ex_surface_ok s && forallb flat_at (su_dates s) | _ => false end = true) by (vm_compute; reflexivity).
  destruct (with_constant_volatility (ex_env c) StickyToStrike sixteenth ex_tenors ex_money) as [[s|]| |] eqn:E; try discriminate W. apply andb_prop in W. destruct W as [W WF].
  destruct (c177_grid _ _ _ _ _ _ E) as (SP & MO & ST & DA & TI & LG & GR). unfold ex_surface_ok in W.
  destruct (su_times s) as [|t1 [|t2 [|? ?]]] eqn:ET; try discriminate W. destruct (su_dates s) as [|d1 [|d2 [|? ?]]] eqn:ED; try discriminate W. repeat (apply andb_prop in W; let X := fresh "W" in destruct W as [W X]).
  cbn [forallb] in WF. apply andb_prop in WF. destruct WF as [WF1 WF2]. apply andb_prop in WF2. destruct WF2 as [WF2 _].
  destruct (near_100 c d1 (P d1 WF1)) as (f1 & EF1 & FF1 & VF1). destruct (near_100 c d2 (P d2 WF2)) as (f2 & EF2 & FF2 & VF2).
  apply (proj1 (fin_le 24 128 _ _ _ _ zero_fn (conj W eq_refl))) in W5. destruct (small_fin 2 ltac:(lia)) as [F2 R2]. destruct (small_fin 3 ltac:(lia)) as [F3 R3]. destruct (small_fin 50 ltac:(lia)) as [F50 R50]. destruct (small_fin 100 ltac:(lia)) as [F100 R100]. destruct (small_fin 1 ltac:(lia)) as [F1 R1].
  change real_of with value in *.
  apply (proj1 (fin_le 24 128 _ _ _ _ (conj W eq_refl) (conj F2 eq_refl))) in W4. apply (proj1 (fin_le 24 128 _ _ _ _ (conj F3 eq_refl) (conj W6 eq_refl))) in W3. apply (proj1 (fin_le 24 128 _ _ _ _ (conj W6 eq_refl) (conj F50 eq_refl))) in W2.
  fold (value t1) (value t2) (value (gof_Z 2)) (value (gof_Z 3)) (value (gof_Z 50)) in *. rewrite R2 in W4. rewrite R3 in W3. rewrite R50 in W2.
  assert (P10 : / 2 ^ 10 <= 1) by (rewrite <- Rinv_1; apply Rinv_le; lra). assert (P20' : / 2 ^ 20 <= / 1000) by (apply Rinv_le; lra).
  apply Rabs_le_inv in VF1. apply Rabs_le_inv in VF2. destruct eighth_value as (_ & _ & FS & VS).
  exists s, [f1; f2]. split; [reflexivity|]. split.
  - split.
    + rewrite ET, LG. cbn [length ex_tenors]. lia.
    + rewrite MO. cbn [length ex_money]. split; [lia|]. eapply Forall_impl; [|exact GR]. cbn beta. intros row [L _]. exact L.
    + rewrite ET. split; [repeat first [apply Forall_nil|apply Forall_cons|split]; try assumption; lra|]. apply two_steps. lra.
    + rewrite MO. unfold ex_money. split; [repeat first [apply Forall_nil|apply Forall_cons|split]; try assumption; rewrite ?R1, ?R2; lra|]. apply two_steps. rewrite R1, R2. lra.
    + rewrite SP. cbn [ve_price ex_env]. repeat first [apply Forall_nil|apply Forall_cons|split]; try assumption; rewrite ?R100; lra.
    + split; [|lra]. eapply Forall_impl; [|exact GR]. cbn beta. intros row [_ L]. eapply Forall_impl; [|exact L]. cbn beta. intros v ->. split; [exact FS|]. rewrite VS. apply Rabs_le. lra.
  - assert (SS : sticky_spot (ex_env c) s = gof_Z 100) by (unfold sticky_spot; rewrite SP; destruct (su_sticky s); reflexivity). rewrite SS. unfold forwards. rewrite ED. repeat constructor; assumption.
Qed.
Lemma ex_option_terms : exists c s0 fwds F t, (forall n, curve_for ex_whole (Some n) c) /\ stock_for ex_whole "a" (gof_Z 100) None /\ with_constant_volatility (VolEnv ex_eval c c (gof_Z 100) None) StickyToStrike sixteenth ex_tenors ex_money = Ret (ROk s0) /\ tame s0 fwds 1 /\
  forwards (VolEnv ex_eval c c (gof_Z 100) None) (sticky_spot (VolEnv ex_eval c c (gof_Z 100) None) s0) s0 fwds /\ fair_forward ex_eval c c (gof_Z 100) None ex_maturity = Ret (ROk F) /\ level_ok F /\ level_ok (gof_Z 90) /\ / 2 ^ 20 <= value (gof_Z 90) / value F <= 2 ^ 20 /\ priced ex_eval c ex_maturity /\
  finite sixteenth /\ / 2 ^ 10 <= value sixteenth <= 16 /\ get_time_difference ex_eval ex_maturity = Ret t /\ finite t /\ / 2 ^ 20 <= value t <= 128.
Proof.
  destruct ex_flat_curve as (c & C & CF & P). destruct (ex_flat_surface c P C) as (s0 & fwds & W & T & FW). assert (PM : priced ex_eval c ex_maturity) by (apply P; vm_compute; reflexivity). destruct (near_100 c ex_maturity PM) as (F & EF & FF & BF). apply Rabs_le_inv in BF.
  assert (TT : ex_time_ok = true) by (vm_compute; reflexivity). unfold ex_time_ok in TT. destruct (get_time_difference ex_eval ex_maturity) as [t| |] eqn:ET; try discriminate TT. apply andb_true_iff in TT. destruct TT as [TT T2]. apply andb_true_iff in TT. destruct TT as [FT T1].
  destruct (small_fin 2 ltac:(lia)) as [F2 V2]. unfold real_of in V2.
  apply (proj1 (fin_le 24 128 _ _ _ _ one_fn (conj FT eq_refl))) in T1. apply (proj1 (fin_le 24 128 _ _ _ _ (conj FT eq_refl) (conj F2 eq_refl))) in T2. rewrite V2 in T2. fold (value t) in T1, T2.
  destruct (level_small 90 ltac:(lia)) as [L90 V90]. assert (LF : level_ok F) by (split; [exact FF|rewrite p30; lra]).
  assert (R : / 2 ^ 20 <= value (gof_Z 90) / value F <= 2 ^ 20). { rewrite V90, p20. assert (I : / 101 <= / value F <= / 99) by (split; apply Rinv_le; lra). unfold Rdiv. lra. }
  exists c, s0, fwds, F, t. split; [exact CF|]. split; [split; reflexivity|]. do 4 (split; [assumption|]). do 4 (split; [assumption|]). split; [reflexivity|]. split; [destruct eighth_value as (_ & _ & _ & E8); rewrite E8, p10; lra|]. split; [reflexivity|]. split; [exact FT|]. rewrite p20. lra.
Qed.
(** a call and a put at 90, a futures at the same maturity: all that C205, C206 and C208
    ask of them *)
Example c206_hypotheses_met : let fo := library an_ln an_cdf (ex_fields QBondPriceProps.ex_fixed) ex_as_is in exists cc cp cf fund xc xf, good_cdf an_cdf /\ cf_npv (se_config ex_whole) = true /\ cf_delta (se_config ex_whole) = true /\
  reported_by fo ex_whole ex_call cc /\ reported_by fo ex_whole ex_put cp /\ reported_by fo ex_whole ex_fut cf /\ in_maturity ex_put = in_maturity ex_call /\ in_maturity ex_fut = in_maturity ex_call /\ ccy ex_put = ccy ex_call /\
  curve_for ex_whole (mp_funding (se_match ex_whole) (ccy ex_call)) fund /\ priced (se_eval ex_whole) fund (in_maturity ex_call) /\ level_ok (gof_Z 90) /\ ca_npv cc = Some (result_of_npv xc) /\ finite xc /\ ca_npv cf = Some (result_of_npv xf) /\ level_ok xf.
Proof.
  intro fo. destruct ex_option_terms as (c & s0 & fwds & F & t & CF & ST & W & T & FW & EF & LF & LK & R & P & FV & BV & ET & FT & BT).
  assert (IN : forall i, In i [ex_call; ex_put; ex_fut] -> In i ex_all) by (intros i I; cbn [In] in I; cbn [ex_all In]; intuition).
  destruct (ex_everything an_ln an_cdf ex_as_is ex_call (or_introl eq_refl) (IN _ (or_introl eq_refl))) as (cc & r1 & RC & N1). destruct (ex_everything an_ln an_cdf ex_as_is ex_put (or_introl eq_refl) (IN _ (or_intror (or_introl eq_refl)))) as (cp & r2 & RP & N2). destruct (ex_everything an_ln an_cdf ex_as_is ex_fut (or_introl eq_refl) (IN _ (or_intror (or_intror (or_introl eq_refl))))) as (cf & r3 & RF & N3).
  destruct (c205_option an_ln an_cdf _ ex_as_is ex_whole ex_call cc RC eq_refl Call "a"%string Ccy_KRW None c c c (gof_Z 100) None F t sixteenth s0 fwds 1 eq_refl eq_refl (CF _) (CF _) (CF _) ST eq_refl W T FW an_ln_good an_cdf_good EF LF LK R P FV BV ET FT BT) as (xc & (_ & XC & _) & FC & _).
  destruct (c204_futures an_ln an_cdf _ ex_as_is ex_whole ex_fut cf RF eq_refl "a"%string [] Ccy_KRW eq_refl) as (coll & borrow & s & dv & x & C1 & B1 & S1 & X & (_ & XF & _) & _). assert (coll = c) by exact (curve_for_one _ _ _ _ C1 (CF _)). assert (borrow = c) by exact (curve_for_one _ _ _ _ B1 (CF _)). destruct (stock_for_one _ _ _ _ _ _ S1 ST) as [-> ->]. subst coll borrow.
  assert (x = F) by (unfold futures_npv in X; cbn [future_of fu_maturity] in X; change (in_maturity ex_fut) with ex_maturity in X; change (se_eval ex_whole) with ex_eval in X; congruence). subst x.
  exists cc, cp, cf, c, xc, F. split; [exact an_cdf_good|]. do 2 (split; [reflexivity|]). do 3 (split; [assumption|]). do 3 (split; [reflexivity|]). split; [exact (CF _)|]. auto 10.
Qed.
Example c207_hypotheses_met : exists c1 c2, no_map ex_call /\ reported_by (library an_ln an_cdf (ex_fields QBondPriceProps.ex_fixed) ex_as_is) ex_whole ex_call c1 /\ reported_by (library an_ln an_cdf (ex_fields QBondPriceProps.ex_fixed) ex_reverse) ex_whole ex_call c2 /\
  exists b1 b2, reported_by (library an_ln an_cdf (ex_fields QBondPriceProps.ex_fixed) ex_as_is) ex_whole ex_paper b1 /\ reported_by (library an_ln an_cdf (ex_fields QBondPriceProps.ex_fixed) ex_reverse) ex_whole ex_paper b2.
Proof.
  assert (I1 : In ex_call ex_all) by (left; reflexivity). assert (I2 : In ex_paper ex_all) by (do 3 right; left; reflexivity).
  destruct (ex_everything an_ln an_cdf ex_as_is ex_call (or_introl eq_refl) I1) as (c1 & _ & C1 & _). destruct (ex_everything an_ln an_cdf ex_reverse ex_call (or_intror eq_refl) I1) as (c2 & _ & C2 & _).
  destruct (ex_everything an_ln an_cdf ex_as_is ex_paper (or_introl eq_refl) I2) as (b1 & _ & B1 & _). destruct (ex_everything an_ln an_cdf ex_reverse ex_paper (or_intror eq_refl) I2) as (b2 & _ & B2 & _).
  exists c1, c2. split; [exact I|]. split; [exact C1|]. split; [exact C2|]. exists b1, b2. split; [exact B1|exact B2].
Qed.
(** REFUTED: the price that is reported for a bond is not determined by the data: two
    runs differ in the order of iteration only, here by 2 *)
Lemma told : forall f_ln f_cdf b su se is i r v, NoDup (map code is) -> (forall u, da_div (se_data se) u = None) -> ~ asked is dummy -> In i is -> fn r v ->
  match ex_run f_ln f_cdf b su se is with Ret (ROk rs) => match rs (code i) with Some c => match ca_npv c with Some x => is_finite (nr_npv x) && geq (nr_npv x) r | None => false end | None => false end | _ => false end = true ->
  exists c x, reported_by (library f_ln f_cdf (ex_fields b) su) se i c /\ ca_npv c = Some x /\ value (nr_npv x) = v.
Proof.
  intros f_ln f_cdf b su se is i r v ND DV NA I N H. destruct (ex_run f_ln f_cdf b su se is) as [[rs|]| |] eqn:R; try discriminate H. destruct (rs (code i)) as [c|] eqn:C; [|discriminate H]. destruct (ca_npv c) as [x|] eqn:X; [|discriminate H].
  apply andb_true_iff in H. destruct H as [F G]. apply (proj1 (fin_eq 24 128 _ _ _ _ (conj F eq_refl) N)) in G. exists c, x. split; [|split; [exact X|exact G]]. exists is, rs. split; [|auto]. exists (ex_orders (map code is)). split; [|exact R].
  split; cbn; try reflexivity; [split; [exact ND|reflexivity]|]. split; [constructor|]. intro u. split; [intros []|]. intros (_ & Q). exact (Q (DV u)).
Qed.
Definition ex_plain : setup := Setup ex_eval (ex_asks false) StickyToStrike true ex_names ex_market ex_one.
Theorem c207_order_refuted : forall f_ln f_cdf, exists de su1 su2 se i c1 c2 x1 x2, (forall k b v j, iterates (su1 k b v j)) /\ (forall k b v j, iterates (su2 k b v j)) /\
  reported_by (library f_ln f_cdf de su1) se i c1 /\ reported_by (library f_ln f_cdf de su2) se i c2 /\ ca_npv c1 = Some x1 /\ ca_npv c2 = Some x2 /\ value (nr_npv x1) = 16777216 /\ value (nr_npv x2) = 16777218.
Proof.
  intros f_ln f_cdf. exists (ex_fields QBondPriceProps.ex_order_bond), ex_as_is, ex_reverse, ex_plain, ex_paper.
  assert (N1 : fn (gof_Z 16777216) 16777216%R) by (split; [reflexivity|cbn; unfold F2R; cbn -[IZR]; lra]). assert (N2 : fn (gof_Z 16777218) 16777218%R) by (split; [reflexivity|cbn; unfold F2R; cbn -[IZR]; lra]).
  assert (ND : NoDup (map code [ex_paper])) by (repeat constructor; cbn; intuition discriminate).
  assert (NA : ~ asked [ex_paper] dummy) by (intros (i & I & U); cbn [In] in I; destruct I as [<-|[]]; cbn in U; intuition discriminate).
  destruct (told f_ln f_cdf QBondPriceProps.ex_order_bond ex_as_is ex_plain [ex_paper] ex_paper _ _ ND (fun _ => eq_refl) NA (or_introl eq_refl) N1) as (c1 & x1 & R1 & X1 & V1); [vm_compute; reflexivity|].
  destruct (told f_ln f_cdf QBondPriceProps.ex_order_bond ex_reverse ex_plain [ex_paper] ex_paper _ _ ND (fun _ => eq_refl) NA (or_introl eq_refl) N2) as (c2 & x2 & R2 & X2 & V2); [vm_compute; reflexivity|].
  exists c1, c2, x1, x2. split; [exact ex_as_is_ok|]. split; [exact ex_reverse_ok|]. auto 10.
Qed.
(** the option and the stock of the example have a delta in the report *)
Example c208_hypotheses_met : cf_delta (se_config ex_whole) = true /\ forall f_ln f_cdf, exists a b x y, reported_by (library f_ln f_cdf (ex_fields QBondPriceProps.ex_fixed) ex_as_is) ex_whole ex_call a /\ reported_by (library f_ln f_cdf (ex_fields QBondPriceProps.ex_fixed) ex_as_is) ex_whole ex_share b /\
  ca_npv a = Some x /\ ca_npv b = Some y.
Proof.
  split; [reflexivity|]. intros f_ln f_cdf. destruct (ex_everything f_ln f_cdf ex_as_is ex_call (or_introl eq_refl) (or_introl eq_refl)) as (a & x & A & X). destruct (ex_everything f_ln f_cdf ex_as_is ex_share (or_introl eq_refl) ltac:(do 4 right; left; reflexivity)) as (b & y & B & Y).
  exists a, b, x, y. auto.
Qed.

Print Assumptions c204_generated.
Print Assumptions c204_inputs.
Print Assumptions c204_terms.
Print Assumptions c204_stock.
Print Assumptions c204_cash.
Print Assumptions c204_futures.
Print Assumptions c204_option.
Print Assumptions c204_bond.
Print Assumptions c204_swap.
Print Assumptions c204_fx_futures.
Print Assumptions c205_stock.
Print Assumptions c205_futures.
Print Assumptions c205_fx_futures.
Print Assumptions c205_bond.
Print Assumptions c205_swap.
Print Assumptions c205_option.
Print Assumptions c208_linear.
Print Assumptions c208_option.
Print Assumptions c206_parity.
Print Assumptions c207_same.
Print Assumptions c207_bond.
Print Assumptions c207_order_refuted.
