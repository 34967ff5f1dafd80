(** QWholeSpec.v -- what an instrument is priced from, straight from the data an engine
    is given (C204 to C208). *)
From Coq Require Import ZArith Ascii String.
From Coq Require Import List Reals.
From Flocq Require Import Core IEEE754.BinarySingleNaN.
From Verif Require Import Base FloatModel KrxModel QDateModel QInterpModel QDivModel QCurveModel QMoneyModel QBondModel QSwapModel QFutModel QInstModel QVolModel QEngModel QLoadModel QLoadSpec QGenModel.
Import ListNotations.
Open Scope Z_scope.

Section Spec.
Context (se : setup).
Definition d : data := se_data se.
Definition mp : match_parameter := se_match se.
(** the curve made from the data of the name that the match parameter has *)
Definition curve_for (name : option string) (c : curve) : Prop := exists n, name = Some n /\ curve_from (se_exp se) (se_eval se) d n c.
(** the price of an underlying, and the dividend made from its data, if it has any *)
Definition stock_for (u : string) (price : f32) (dv : option dividend) : Prop :=
  da_stock d u = Some price /\ match dv with Some x => div_from (se_eval se) d u x | None => da_div d u = None end.
(** the surface of an underlying, built from its quotes or its constant volatility *)
Definition surface_for (u : string) (s : surface) : Prop :=
  exists e, curve_for (mp_collateral mp u) (ve_coll e) /\ curve_for (mp_borrowing mp u) (ve_borrow e) /\ ve_eval e = se_eval se /\ stock_for u (ve_price e) (ve_div e) /\
    vol_from d e (se_sticky se) (cf_vega_tenors (se_config se)) (cf_moneyness (se_config se)) u s.
(** the forward curve and the past fixings of a rate index *)
Definition index_for (x : option (string * string)) (f : option curve) (p : option closes) : Prop :=
  match x with None => f = None /\ p = None | Some ix => exists c q, f = Some c /\ curve_for (mp_index mp (fst ix)) c /\ p = Some q /\ da_past d (snd ix) = Some q end.
(** quanto data, where the currency of the payoff is another *)
Definition quanto_for (i : instrument) (u : string) (uc : currency) (q : option quanto) : Prop :=
  (uc = ccy i -> q = None) /\ (uc <> ccy i -> exists v r, q = Some (Quanto (constant_vol v) r) /\ da_fx_vol d (FxCode uc (ccy i)) = Some v /\ da_corr d (u, FxCode uc (ccy i)) = Some r).
Definition rate_for (x : option fx_code) (r : option f32) : Prop :=
  match x with None => r = None | Some y => exists v, r = Some v /\ market_fx (da_fx d) y = ROk v end.
End Spec.

(** ** What the pricer of an instrument reads *)
Inductive sees (se : setup) (i : instrument) : view -> Prop :=
| sees_futures : forall u us uc c b s dv, in_kind i = KFutures (u :: us) uc -> curve_for se (mp_collateral (se_match se) u) c -> curve_for se (mp_borrowing (se_match se) u) b -> stock_for se u s dv ->
    sees se i (View (se_eval se) [Some c; Some b] (Some (s, se_eval se, dv)) None None None None)
| sees_option : forall ty u uc x a c b s dv f e q, in_kind i = KOption ty u uc false x -> curve_for se (mp_funding (se_match se) (ccy i)) a -> curve_for se (mp_collateral (se_match se) u) c -> curve_for se (mp_borrowing (se_match se) u) b ->
    stock_for se u s dv -> surface_for se u f -> quanto_for se i u uc q -> sees se i (View (se_eval se) [Some a; Some c; Some b] (Some (s, se_eval se, dv)) (Some (f, e)) None q None)
| sees_bond : forall issuer t r x a f p, in_kind i = KBond issuer t r x -> curve_for se (mp_bond (se_match se) (issuer, t, r, ccy i)) a -> index_for se x f p ->
    sees se i (View (se_eval se) [Some a; f] None None None None p)
| sees_fx_futures : forall uc x u f r rd, in_kind i = KFxFutures uc x -> curve_for se (mp_crs (se_match se) uc) u -> curve_for se (mp_crs (se_match se) (ccy i)) f -> rate_for se (Some x) (Some r) ->
    sees se i (View (se_eval se) [Some u; Some f] None None (Some (r, rd, None)) None None)
| sees_swap : forall t fc x fx a b f p r v, in_kind i = KSwap t fc x fx -> curve_for se (mp_crs (se_match se) (ccy i)) a -> curve_for se (mp_crs (se_match se) fc) b -> index_for se x f p -> rate_for se fx r ->
    r = option_map (fun p => fst (fst p)) v -> sees se i (View (se_eval se) [Some a; Some b; f] None None v None p)
| sees_stock : forall u s dv, in_kind i = KStock u -> stock_for se (code i) s dv -> sees se i (View (se_eval se) [] (Some (s, se_eval se, dv)) None None None None)
| sees_cash : in_kind i = KCash -> sees se i (View (se_eval se) [] None None None None None).

(** a report that engines with these formulas may give for the instrument, in whatever
    portfolio it is *)
Definition reported_by (fo : formulas) (se : setup) (i : instrument) (c : calc) : Prop :=
  exists is rs, may fo se is (ROk rs) /\ NoDup (map code is) /\ ~ asked is dummy /\ In i is /\ rs (code i) = Some c.
(** it has this price *)
Definition shows (c : calc) (i : instrument) (res : npv_result) : Prop := ca_unit c = notional i /\ ca_npv c = Some res /\ ca_value c = Some (gmul (nr_npv res) (notional i)).

(** ** Orders of iteration *)
(** the pricer goes through no map: all but those of bonds and swaps *)
Definition no_map (i : instrument) : Prop := match in_kind i with KBond _ _ _ _ | KSwap _ _ _ _ => False | _ => True end.
