(** QWholeModel.v -- the engine with the pricers of this library: what the pricers of
    quantlib/src/pricing_engines compute is put where QEngModel.v and QGenModel.v had
    any formulas.

    Nothing is modelled again here: the pricers are those of QFutModel.v, QBondModel.v
    and QSwapModel.v, the surface that of QVolModel.v, the engine that of QEngModel.v to
    QGenModel.v.  The pricer of KTBF and the yield pricer are left out: no engine gets one
    (see C198). *)
From Coq Require Import ZArith Ascii String.
From Coq Require Import List Bool.
From Flocq Require Import Core IEEE754.BinarySingleNaN.
From Verif Require Import Base FloatModel KrxModel QDateModel QInterpModel QDivModel QCurveModel QMoneyModel QBondModel QSwapModel QFutModel QInstModel QVolModel QEngModel QLoadModel QGenModel.
Import ListNotations.
Open Scope Z_scope.

(** ** What instruments hold besides what QInstModel.v has of them: the average trade
    price (futures.rs 12, fx_futures.rs 12), the strike (vanilla_option.rs 12), the whole
    bond (bond.rs 20-51) and the whole swap (plain_swap.rs 36-88) *)
Record details : Type := Details { de_average : instrument -> f32; de_strike : instrument -> f32; de_bond : instrument -> bond; de_swap : instrument -> swap }.
(** futures.rs 10-22 *)
Definition future_of (de : details) (i : instrument) (uc : currency) : futures := Futures (de_average de i) (in_maturity i) (in_notional i) (in_ccy i) uc.
(** fx_futures.rs 10-22 *)
Definition fx_future_of (de : details) (i : instrument) (uc : currency) (x : fx_code) : fx_futures := FxFutures (de_average de i) (in_maturity i) (in_notional i) (in_ccy i) uc x.
(** vanilla_option.rs 10-27 *)
Definition option_of (de : details) (i : instrument) (ty : option_type) (uc : currency) (q : option fx_code) : vanilla := Vanilla (de_strike de i) (in_notional i) (in_maturity i) uc (in_ccy i) q ty.

(** ** The orders in which the pricers of bonds and swaps go through their maps of cash
    flows.  Each map has its own (std's RandomState), so it depends on what the call is
    for, on the leg (true: the floating one) and on what is priced.  Simplification: the
    same call about the same data has the same order again *)
Inductive call : Type := ForNpv | ForResult | ForFx.
Definition sums : Type := call -> bool -> view -> instrument -> list (odt * f32) -> list (odt * f32).

Section Pricers.
(** [f32::ln]; statrs' [normal.cdf] *)
Context (f_ln f_cdf : f32 -> f32) (de : details) (su : sums).
Definition rate_of (v : view) : option f32 := option_map (fun p => fst (fst p)) (vw_rate v).
(** npv: futures_pricer.rs 83-96, option_analytic_pricer.rs 56-108, bond_pricer.rs 40-69,
    plain_swap_pricer.rs 99-137, fx_futures_pricer.rs 39-65, identity_pricer.rs 21-23,
    cash_pricer.rs 27-29.  An engine's pricers refer to what is there, so the cases where
    something is lacking are not reached *)
Definition real_npv (v : view) (i : instrument) : outcome (rresult f32) :=
  match in_kind i, vw_curves v, vw_equity v with
  | KFutures _ uc, [Some c; Some b], Some (s, _, dv) => futures_npv (vw_date v) c b s dv (future_of de i uc)
  | KOption ty _ uc _ q, [Some a; Some c; Some b], Some (s, _, dv) =>
      match vw_vol v with Some (f, _) => option_npv f_ln f_cdf (vw_date v) c b a s dv (surface_vol f) (vw_quanto v) (option_of de i ty uc q) | None => Ret RErr end
  | KBond _ _ _ _, [Some a; f], _ => bond_npv f_ln (su ForNpv false v i) (vw_date v) a f (vw_fixings v) (de_bond de i)
  | KSwap _ _ _ _, [Some a; Some b; f], _ => swap_npv f_ln (su ForNpv false v i) (su ForNpv true v i) (vw_date v) a b f (vw_fixings v) (rate_of v) (de_swap de i)
  | KFxFutures uc x, [Some u; Some f], _ => match rate_of v with Some r => fx_futures_npv (vw_date v) u f r (fx_future_of de i uc x) | None => Ret RErr end
  | KStock _, _, Some (s, _, _) => identity_npv s
  | KCash, _, _ => unit_npv
  | _, _, _ => Ret RErr
  end.
(** npv_result: futures_pricer.rs 68-81, option_analytic_pricer.rs 110-114,
    bond_pricer.rs 71-114, plain_swap_pricer.rs 43-97, fx_futures_pricer.rs 67-70,
    identity_pricer.rs 25-27, cash_pricer.rs 22-25 *)
Definition real_result (v : view) (i : instrument) : outcome (rresult npv_result) :=
  match in_kind i, vw_curves v, vw_equity v with
  | KFutures _ uc, [Some c; Some b], Some (s, _, dv) => futures_result (vw_date v) c b s dv (future_of de i uc)
  | KOption ty _ uc _ q, [Some a; Some c; Some b], Some (s, _, dv) =>
      match vw_vol v with Some (f, _) => option_result f_ln f_cdf (vw_date v) c b a s dv (surface_vol f) (vw_quanto v) (option_of de i ty uc q) | None => Ret RErr end
  | KBond _ _ _ _, [Some a; f], _ => bond_npv_result f_ln (su ForResult false v i) (vw_date v) a f (vw_fixings v) (de_bond de i)
  | KSwap _ _ _ _, [Some a; Some b; f], _ => swap_npv_result f_ln (su ForResult false v i) (su ForResult true v i) (vw_date v) a b f (vw_fixings v) (rate_of v) (de_swap de i)
  | KFxFutures uc x, [Some u; Some f], _ => match rate_of v with Some r => fx_futures_result (vw_date v) u f r (fx_future_of de i uc x) | None => Ret RErr end
  | KStock _, _, Some (s, _, _) => simple_result (identity_npv s)
  | KCash, _, _ => simple_result unit_npv
  | _, _, _ => Ret RErr
  end.
(** fx_exposure: futures_pricer.rs 97-116, fx_futures_pricer.rs 72-103,
    plain_swap_pricer.rs 139-185, and pricer.rs 23-31 for the others *)
Definition real_fx (v : view) (i : instrument) (npv : f32) : outcome (rresult (list (currency * f32))) :=
  match in_kind i, vw_curves v, vw_equity v with
  | KFutures _ uc, [Some c; Some b], Some (s, _, dv) => futures_exposure (vw_date v) c b s dv (future_of de i uc)
  | KFutures _ _, _, _ => Ret RErr
  | KSwap _ _ _ _, [Some a; Some b; f], _ => swap_exposure f_ln (su ForFx false v i) (su ForFx true v i) (vw_date v) a b f (vw_fixings v) (de_swap de i)
  | KSwap _ _ _ _, _, _ => Ret RErr
  | KFxFutures uc x, [Some u; Some f], _ => fx_futures_exposure (vw_date v) u f (fx_future_of de i uc x)
  | KFxFutures _ _, _, _ => Ret RErr
  | _, _, _ => default_exposure (ccy i) (notional i) npv
  end.
Definition library : formulas := Formulas real_npv real_result real_fx.
End Pricers.
