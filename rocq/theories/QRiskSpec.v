(** QRiskSpec.v -- what an instrument is priced from when a curve, a surface or a dividend
    is bumped, straight from the data (C215 to C217). *)
From Coq Require Import ZArith Ascii String.
From Coq Require Import List.
From Flocq Require Import Core IEEE754.BinarySingleNaN.
From Verif Require Import Base FloatModel KrxModel QDateModel QInterpModel QDivModel QCurveModel QMoneyModel QBondModel QInstModel QVolModel QEngModel QGenModel QWholeSpec.
Import ListNotations.
Open Scope Z_scope.

Section Risk.
Context (se : setup).
Definition cfg : config := se_config se.
(** the curve is bumped, or was bumped up and down again *)
Definition curve_up (b : f32) (c c' : curve) : Prop := bump_times (se_exp se) c None None b = Ret (ROk tt, c').
Definition curve_up_down (b : f32) (c c' : curve) : Prop := exists c1, curve_up b c c1 /\ curve_up (gneg b) c1 c'.
(** the market an option's surface is for *)
Definition env_for (u : string) (e : vol_env) : Prop :=
  curve_for se (mp_collateral (se_match se) u) (ve_coll e) /\ curve_for se (mp_borrowing (se_match se) u) (ve_borrow e) /\ ve_eval e = se_eval se /\ stock_for se u (ve_price e) (ve_div e).
Definition surface_up (u : string) (b : f32) (s s' : surface) : Prop := exists e, env_for u e /\ bump_surface e None None None None b s = Ret (ROk s').
Definition surface_up_down (u : string) (b : f32) (s s' : surface) : Prop := exists s1, surface_up u b s s1 /\ surface_up u (gneg b) s1 s'.
(** what an earlier part of the calculation may have left: vega is calculated before rho,
    and rho before the delta of dividends *)
Definition surface_left (u : string) (s s' : surface) : Prop := s' = s \/ cf_vega cfg = true /\ surface_up_down u (cf_vega_bump cfg) s s'.
Definition curve_left (c c' : curve) : Prop := c' = c \/ cf_rho cfg = true /\ curve_up_down (cf_rho_bump cfg) c c'.

(** the names of the curves the pricer of an instrument reads, in its order *)
Definition index_name (x : option (string * string)) : option string := match x with Some ix => mp_index (se_match se) (fst ix) | None => None end.
Definition curve_names (i : instrument) : list (option string) :=
  let crs := mp_crs (se_match se) in let coll := mp_collateral (se_match se) in let borrow := mp_borrowing (se_match se) in
  match in_kind i with
  | KFutures (u :: _) _ => [coll u; borrow u]
  | KOption _ u _ _ _ => [mp_funding (se_match se) (ccy i); coll u; borrow u]
  | KBond issuer t r x => [mp_bond (se_match se) (issuer, t, r, ccy i); index_name x]
  | KFxFutures uc _ => [crs uc; crs (ccy i)]
  | KSwap _ fc x _ => [crs (ccy i); crs fc; index_name x]
  | _ => []
  end.
(** the curves of the name [n] are bumped, the others may have been *)
Definition curve_moved (n name : string) (c c' : curve) : Prop := (name = n -> curve_up (cf_rho_bump cfg) c c') /\ (name <> n -> curve_left c c').
Inductive curves_like (P : string -> curve -> curve -> Prop) : list (option string) -> list (option curve) -> list (option curve) -> Prop :=
| like_none : curves_like P [] [] []
| like_no_curve : forall ns cs cs', curves_like P ns cs cs' -> curves_like P (None :: ns) (None :: cs) (None :: cs')
| like_curve : forall name c c' ns cs cs', P name c c' -> curves_like P ns cs cs' -> curves_like P (Some name :: ns) (Some c :: cs) (Some c' :: cs').
Definition vols_like (R : string -> surface -> surface -> Prop) (i : instrument) (v v' : view) : Prop :=
  match vw_vol v, vw_vol v' with None, None => True | Some (s, _), Some (s', _) => exists u, In u (underlyings i) /\ R u s s' | _, _ => False end.

(** for rho in the curve [n] *)
Definition rho_view (n : string) (i : instrument) (v v' : view) : Prop :=
  vw_date v' = vw_date v /\ vw_equity v' = vw_equity v /\ vw_rate v' = vw_rate v /\ vw_quanto v' = vw_quanto v /\ vw_fixings v' = vw_fixings v /\
  curves_like (curve_moved n) (curve_names i) (vw_curves v) (vw_curves v') /\ vols_like surface_left i v v'.
(** for vega in the surface of [u] *)
Definition vega_view (u : string) (v v' : view) : Prop :=
  vw_date v' = vw_date v /\ vw_equity v' = vw_equity v /\ vw_rate v' = vw_rate v /\ vw_quanto v' = vw_quanto v /\ vw_fixings v' = vw_fixings v /\ vw_curves v' = vw_curves v /\
  match vw_vol v, vw_vol v' with Some (s, _), Some (s', _) => surface_up u (cf_vega_bump cfg) s s' | _, _ => False end.
(** for the delta of the dividends of the underlying *)
Definition div_view (i : instrument) (v v' : view) : Prop :=
  vw_date v' = vw_date v /\ vw_rate v' = vw_rate v /\ vw_quanto v' = vw_quanto v /\ vw_fixings v' = vw_fixings v /\
  curves_like (fun _ => curve_left) (curve_names i) (vw_curves v) (vw_curves v') /\ vols_like surface_left i v v' /\
  exists s t dv dv', vw_equity v = Some (s, t, Some dv) /\ vw_equity v' = Some (s, t, Some dv') /\ bump_dividend dv None None (cf_div_bump cfg) = Ret (ROk tt, dv').
End Risk.
