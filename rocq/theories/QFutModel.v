(** QFutModel.v -- futures, FX futures, vanilla options and their pricers, and
    the pricers of cash and stock (quantlib/src/instruments/futures.rs,
    fx_futures.rs, vanilla_option.rs; pricing_engines/pricer.rs,
    futures_pricer.rs, fx_futures_pricer.rs, option_analytic_pricer.rs,
    identity_pricer.rs, unit_pricer.rs, cash_pricer.rs; parameters/quanto.rs,
    volatilities/constant_volatility.rs).

    Each pricer is modelled on the instrument it is for.  Names, codes, the
    trade and settlement dates and logging are left out: no pricer reads them.
    A HashMap is the list of its entries. *)
From Coq Require Import ZArith List Bool.
From Flocq Require Import Core IEEE754.BinarySingleNaN.
From Verif Require Import Base FloatModel KrxModel QDateModel QYearModel QInterpModel QDivModel QCurveModel QBondModel QMoneyModel.
Import ListNotations.
Open Scope Z_scope.

(** ** Futures *)
(** instruments/futures.rs 10-22: Futures *)
Record futures : Type := Futures { fu_average : f32; fu_maturity : odt; fu_notional : f32; fu_ccy : currency; fu_und_ccy : currency }.
(** pricing_engines/futures_pricer.rs 37-64: fair_forward; [spot] and [div] are
    the market price's value and dividend *)
Definition fair_forward (eval : odt) (coll borrow : curve) (spot : f32) (div : option dividend) (date : odt) : outcome (rresult f32) :=
  let? c := discount_at eval coll date in
  let? b := discount_at eval borrow date in
  let? q := price_deduction_ratio div date in
  Ret (ROk (gmul (gdiv (gmul spot b) c) q)).
(** futures_pricer.rs 83-96: npv *)
Definition futures_npv (eval : odt) (coll borrow : curve) (spot : f32) (div : option dividend) (f : futures) : outcome (rresult f32) :=
  fair_forward eval coll borrow spot div (fu_maturity f).
(** futures_pricer.rs 68-81: npv_result *)
Definition futures_result (eval : odt) (coll borrow : curve) (spot : f32) (div : option dividend) (f : futures) : outcome (rresult npv_result) :=
  let? x := fair_forward eval coll borrow spot div (fu_maturity f) in Ret (ROk (result_of_npv x)).
(** futures_pricer.rs 97-116: fx_exposure; [expect] panics on an error *)
Definition futures_exposure (eval : odt) (coll borrow : curve) (spot : f32) (div : option dividend) (f : futures) : outcome (rresult (list (currency * f32))) :=
  let! r := futures_npv eval coll borrow spot div f in
  match r with
  | RErr => Panic
  | ROk x => Ret (ROk [(fu_ccy f, gmul (gsub x (fu_average f)) (fu_notional f))])
  end.

(** ** FX futures *)
(** instruments/fx_futures.rs 10-22: FxFutures *)
Record fx_futures : Type := FxFutures { ff_average : f32; ff_maturity : odt; ff_notional : f32; ff_ccy : currency; ff_und_ccy : currency; ff_fx : fx_code }.
(** fx_futures.rs 44-71: new *)
Definition fx_futures_new (average : f32) (maturity : odt) (notional : f32) (ccy und : currency) : fx_futures :=
  FxFutures average maturity notional ccy und (FxCode und ccy).
(** pricing_engines/fx_futures_pricer.rs 39-65: npv *)
Definition fx_futures_npv (eval : odt) (und fut : curve) (fx : f32) (f : fx_futures) : outcome (rresult f32) :=
  let? u := discount_at eval und (ff_maturity f) in
  let? d := discount_at eval fut (ff_maturity f) in
  Ret (ROk (gdiv (gmul fx u) d)).
(** fx_futures_pricer.rs 67-70: npv_result *)
Definition fx_futures_result (eval : odt) (und fut : curve) (fx : f32) (f : fx_futures) : outcome (rresult npv_result) :=
  let? x := fx_futures_npv eval und fut fx f in Ret (ROk (result_of_npv x)).
(** [HashMap::insert] *)
Fixpoint ccy_put (c : currency) (x : f32) (m : list (currency * f32)) : list (currency * f32) :=
  match m with [] => [(c, x)] | (d, v) :: m' => if ccy_eqb d c then (d, x) :: m' else (d, v) :: ccy_put c x m' end.
(** fx_futures_pricer.rs 72-103: fx_exposure *)
Definition fx_futures_exposure (eval : odt) (und fut : curve) (f : fx_futures) : outcome (rresult (list (currency * f32))) :=
  let? u := discount_at eval und (ff_maturity f) in
  let? d := discount_at eval fut (ff_maturity f) in
  Ret (ROk (ccy_put (ff_und_ccy f) u (ccy_put (ff_ccy f) (gmul (gneg d) (ff_average f)) []))).

(** ** Cash, stock and the exposure of the rest *)
(** pricing_engines/pricer.rs 24-31: fx_exposure, the default *)
Definition default_exposure (ccy : currency) (notional npv : f32) : outcome (rresult (list (currency * f32))) :=
  Ret (ROk [(ccy, gmul npv notional)]).
(** pricing_engines/identity_pricer.rs 21-23: npv *)
Definition identity_npv (spot : f32) : outcome (rresult f32) := Ret (ROk spot).
(** pricing_engines/unit_pricer.rs 18-20, cash_pricer.rs 27-29: npv *)
Definition unit_npv : outcome (rresult f32) := Ret (ROk (gof_Z 1)).
(** identity_pricer.rs 25-27, unit_pricer.rs 22-24, cash_pricer.rs 22-25:
    npv_result *)
Definition simple_result (npv : outcome (rresult f32)) : outcome (rresult npv_result) := let? x := npv in Ret (ROk (result_of_npv x)).

(** ** Volatility *)
(** [f32::sqrt]: correctly rounded *)
Definition gsqrt (x : f32) : f32 := Bsqrt mode_NE x.
(** parameters/volatility.rs 13-33: what VolatilityTrait offers the pricers:
    get_value, total_variance, total_deviation of a time and a moneyness.
    LocalVolatilitySurface is in QVolModel.v; the theorems that do not name the
    constant volatility hold for whatever these functions are. *)
Record volatility : Type := Vol { vol_value : f32 -> f32 -> f32; vol_var : f32 -> f32 -> outcome (rresult f32); vol_dev : f32 -> f32 -> outcome (rresult f32) }.
(** parameters/volatilities/constant_volatility.rs 30-48 *)
Definition constant_vol (v : f32) : volatility :=
  Vol (fun _ _ => v) (fun t _ => Ret (ROk (gmul (gmul v v) t))) (fun t _ => Ret (ROk (gmul v (gsqrt t)))).
(** constant_volatility.rs 50-60: bump_volatility *)
Definition bump_constant (v bump : f32) : f32 := gadd v bump.
(** parameters/quanto.rs 11-16: Quanto *)
Record quanto : Type := Quanto { qu_vol : volatility; qu_corr : f32 }.
(** quanto.rs 33-35: quanto_adjust *)
Definition quanto_adjust (q : quanto) (t moneyness : f32) : f32 := gmul (vol_value (qu_vol q) t moneyness) (qu_corr q).

(** ** Vanilla options *)
(** enums.rs: OptionType *)
Inductive option_type : Type := Call | Put.
(** instruments/vanilla_option.rs 10-27: VanillaOption *)
Record vanilla : Type := Vanilla { vo_strike : f32; vo_notional : f32; vo_maturity : odt; vo_und_ccy : currency; vo_ccy : currency; vo_quanto_fx : option fx_code; vo_type : option_type }.
(** vanilla_option.rs 53-95: new *)
Definition vanilla_new (strike notional : f32) (maturity : odt) (und ccy : currency) (k : option_type) : vanilla :=
  Vanilla strike notional maturity und ccy (if ccy_eqb ccy und then None else Some (FxCode und ccy)) k.

Section Option.
(** [f32::ln], and [normal.cdf(x as f64) as Real] of statrs (lines 99-101) *)
Context (f_ln f_cdf : f32 -> f32).
(** pricing_engines/option_analytic_pricer.rs 93-107: from the forward, the
    strike, the moneyness and the volatility's numbers to the price *)
Definition black (k : option_type) (fwd strike moneyness var dev adj dsc : f32) : f32 :=
  let y := f_ln moneyness in
  let d1 := gdiv (gsub (gadd (gneg y) (gdiv var (gof_Z 2))) adj) dev in
  let d2 := gsub d1 dev in
  let nd1 := f_cdf d1 in
  let nd2 := f_cdf d2 in
  match k with
  | Call => gmul dsc (gsub (gmul fwd nd1) (gmul strike nd2))
  | Put => gmul dsc (gsub (gmul strike (gsub (gof_Z 1) nd2)) (gmul fwd (gsub (gof_Z 1) nd1)))
  end.
(** option_analytic_pricer.rs 87-91: quanto_adjustment *)
Definition adjustment (q : option quanto) (v : volatility) (t moneyness : f32) : f32 :=
  match q with Some q => gmul (gmul (vol_value v t moneyness) t) (quanto_adjust q t moneyness) | None => gof_Z 0 end.
(** option_analytic_pricer.rs 56-108: npv *)
Definition option_npv (eval : odt) (coll borrow disc : curve) (spot : f32) (div : option dividend) (v : volatility) (q : option quanto) (o : vanilla) : outcome (rresult f32) :=
  let? fwd := fair_forward eval coll borrow spot div (vo_maturity o) in
  let m := gdiv (vo_strike o) fwd in
  let! t := get_time_difference eval (vo_maturity o) in
  let? var := vol_var v t m in
  let? dev := vol_dev v t m in
  if negb (ccy_eqb (vo_ccy o) (vo_und_ccy o)) && (match q with None => true | Some _ => false end) then Ret RErr
  else
    let adj := adjustment q v t m in
    let? dsc := discount disc t in
    Ret (ROk (black (vo_type o) fwd (vo_strike o) m var dev adj dsc)).
(** option_analytic_pricer.rs 110-114: npv_result *)
Definition option_result (eval : odt) (coll borrow disc : curve) (spot : f32) (div : option dividend) (v : volatility) (q : option quanto) (o : vanilla) : outcome (rresult npv_result) :=
  let? x := option_npv eval coll borrow disc spot div v q o in Ret (ROk (result_of_npv x)).
End Option.
