(** QSwapSpec.v -- vocabulary for the statements about swaps. *)
From Coq Require Import ZArith List Reals Ascii.
From Flocq Require Import Core IEEE754.BinarySingleNaN.
From Verif Require Import Base FloatModel KrxModel QDateModel QCalModel QPeriodModel QYearModel QSchedModel QCurveModel QInterpSpec QCurveSpec QBondModel QBondSpec QMoneyModel QSwapModel.
Import ListNotations.
Open Scope Z_scope.

(** what the terms must be for a kind of swap *)
Definition fits (k : swap_type) (fixed_rows float_rows : list row) (rate : option f32) (index : option (list ascii)) (issue maturity : odt) (fixed_ccy float_ccy : currency)
  (init_fixed init_float last_fixed last_float : option f32) : Prop :=
  let exchange_first := init_fixed <> None /\ init_float <> None in
  let exchange_last := last_fixed <> None /\ last_float <> None in
  let no_first := init_fixed = None /\ init_float = None in
  let no_last := last_fixed = None /\ last_float = None in
  let coupons := index <> None /\ rate <> None in
  let no_coupons := index = None /\ rate = None /\ fixed_rows = [] /\ float_rows = [] in
  match k with
  | IRS => no_first /\ no_last /\ coupons /\ fixed_ccy = float_ccy
  | CRS => exchange_first /\ exchange_last /\ coupons /\ fixed_ccy <> float_ccy
  | FxSwap => exchange_first /\ exchange_last /\ no_coupons /\ fixed_ccy <> float_ccy
  | FxForward => no_first /\ exchange_last /\ no_coupons /\ fixed_ccy <> float_ccy /\ od_day issue + 2 < od_day maturity
  | FxSpot => no_first /\ exchange_last /\ no_coupons /\ fixed_ccy <> float_ccy /\ od_day maturity <= od_day issue + 2
  end.
(** the swap has the given terms *)
Definition has_terms (s : swap) (fixed_rows float_rows : list row) (rate : option f32) (index comp : option (list ascii)) (a : any_calendar) (notional : f32) (issue effective maturity : odt) (fixed_ccy float_ccy : currency)
  (init_fixed init_float last_fixed last_float : option f32) (fixed_dc float_dc : day_count) (fixed_conv float_conv : convention) (fixed_freq float_freq : frequency) (fix_gap pay_gap : Z) : Prop :=
  sw_fixed_rows s = fixed_rows /\ sw_float_rows s = float_rows /\ sw_rate s = rate /\ sw_index s = index /\ sw_comp s = comp /\ sw_cal s = a /\ sw_notional s = notional /\
  sw_issue s = issue /\ sw_effective s = effective /\ sw_maturity s = maturity /\ sw_fixed_ccy s = fixed_ccy /\ sw_float_ccy s = float_ccy /\
  sw_init_fixed s = init_fixed /\ sw_init_float s = init_float /\ sw_last_fixed s = last_fixed /\ sw_last_float s = last_float /\
  sw_fixed_dc s = fixed_dc /\ sw_float_dc s = float_dc /\ sw_fixed_conv s = fixed_conv /\ sw_float_conv s = float_conv /\ sw_fixed_freq s = fixed_freq /\ sw_float_freq s = float_freq /\
  sw_fix_gap s = fix_gap /\ sw_pay_gap s = pay_gap /\
  (fixed_ccy = float_ccy -> sw_fx s = None) /\ (fixed_ccy <> float_ccy -> sw_fx s = Some (FxCode float_ccy fixed_ccy)).

(** one amount at the effective date, one at maturity, where there are such *)
Definition exchanges (s : swap) (first last : option f32) : list (odt * f32) :=
  match first with Some v => [(sw_effective s, v)] | None => [] end ++ match last with Some v => [(sw_maturity s, v)] | None => [] end.
(** the fixed side receives first and pays at the end *)
Definition fixed_exchanges (s : swap) : list (odt * f32) := exchanges s (sw_init_fixed s) (option_map gneg (sw_last_fixed s)).
(** the floating side pays first and receives at the end *)
Definition float_exchanges (s : swap) : list (odt * f32) := exchanges s (option_map gneg (sw_init_float s)) (sw_last_float s).
(** amounts on the payment dates of rows *)
Definition paid_on (rows : list row) (xs : list f32) : list (odt * f32) := combine (map (fun r => payment_date (rw_dates r)) rows) xs.
(** not both exchanges on one point in time *)
Definition apart (s : swap) (first last : option f32) : Prop := first = None \/ last = None \/ instant (sw_effective s) <> instant (sw_maturity s).
(** the size the coupons of a side refer to: the amount exchanged first, else 1 *)
Definition size_of (first : option f32) (v : f32) : Prop := first = Some v \/ first = None /\ v = gof_Z 1.
(** what a fixed row pays *)
Definition fixed_pays (s : swap) (rate size : f32) (r : row) (x : f32) : Prop :=
  exists f, year_fraction (sw_cal s) (calc_start_date (rw_dates r)) (calc_end_date (rw_dates r)) (sw_fixed_dc s) = Ret (ROk f) /\ x = gmul (gmul (gneg rate) f) size.
(** what a floating row receives *)
Definition float_pays (f_ln : f32 -> f32) (s : swap) (tenor : list ascii) (eval pricing : odt) (fwd : option curve) (past : option closes) (size : f32) (r : row) (x : f32) : Prop :=
  exists c p y, fwd = Some c /\ (past = Some p \/ past = None /\ p = no_closes) /\
    coupon_amount f_ln tenor (rw_dates r) None eval c p pricing (sw_comp s) (sw_cal s) (sw_float_dc s) (sw_fix_gap s) = Ret (ROk y) /\ x = gmul y size.

(** the amounts of the map for a currency, [None] if there is no entry *)
Definition exposure_in (m : list (currency * f32)) (c : currency) : option f32 := match filter (fun p => ccy_eqb (fst p) c) m with [] => None | p :: _ => Some (snd p) end.
