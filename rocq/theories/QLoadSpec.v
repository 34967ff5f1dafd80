(** QLoadSpec.v -- what an engine needs and what it has after loading (C196 to C198). *)
From Coq Require Import ZArith Ascii String.
From Coq Require Import List.
From Flocq Require Import Core IEEE754.BinarySingleNaN.
From Verif Require Import Base FloatModel KrxModel QDateModel QDivModel QCurveModel QMoneyModel QFutModel QInstModel QInstSpec QVolModel QEngModel QLoadModel.
Import ListNotations.
Open Scope Z_scope.

Section Spec.
Context (is : list instrument) (mp : match_parameter).
(** some instrument has this underlying, needs its volatility, pays with this rate, is
    quanto in this pair *)
Definition asked (u : string) : Prop := exists i, In i is /\ In u (underlyings i).
Definition vol_asked (u : string) : Prop := exists i, In i is /\ In u (vol_underlyings i).
Definition fx_asked (x : fx_code) : Prop := exists i, In i is /\ In x (fx_codes i).
Definition pair_asked (p : string * fx_code) : Prop := exists i, In i is /\ In p (quanto_pairs i).
(** curves come for the names instruments need and for the codes of underlyings *)
Definition curve_asked (n : string) : Prop := asked n \/ (n <> dummy /\ exists i, In i is /\ needs mp i (Some n)).

Context (f_exp : f32 -> f32) (eval : odt) (d : data).
(** the curve, dividend that the data of a key make *)
Definition curve_from (n : string) (c : curve) : Prop := exists v, da_curve d n = Some v /\ curve_new f_exp eval v = Ret (ROk c).
Definition div_from (u : string) (x : dividend) : Prop := exists v spot, da_div d u = Some v /\ da_stock d u = Some spot /\ dividend_new eval v spot = Ret (ROk x).
(** the surface: a constant volatility goes before one of the market *)
Definition vol_from (e : vol_env) (k : stickyness) (tenors : list (list ascii)) (money : list f32) (u : string) (s : surface) : Prop :=
  exists s0, vol_build e s0 = Ret (ROk s) /\
    match da_const_vol d u with
    | Some v => with_constant_volatility e k v tenors money = Ret (ROk s0)
    | None => exists v, da_surface d u = Some v /\ with_market_surface e k v tenors money = Ret (ROk s0)
    end.
(** the market in which the surface of [u] is built *)
Definition built_in (u : string) (e : vol_env) : Prop := exists nc nb, mp_collateral mp u = Some nc /\ mp_borrowing mp u = Some nb /\ ve_eval e = eval /\ curve_from nc (ve_coll e) /\ curve_from nb (ve_borrow e) /\ da_stock d u = Some (ve_price e) /\
  match ve_div e with Some x => div_from u x | None => da_div d u = None end.
(** something is missing, or is refused by what it is for *)
Inductive lacks (k : stickyness) (tenors : list (list ascii)) (money : list f32) : Prop :=
| lacks_rate : forall x, fx_asked x -> market_fx (da_fx d) x = RErr -> lacks k tenors money
| lacks_name : forall i, In i is -> needs mp i None -> lacks k tenors money
| lacks_curve : forall n, curve_asked n -> da_curve d n = None -> lacks k tenors money
| lacks_good_curve : forall n v, curve_asked n -> da_curve d n = Some v -> curve_new f_exp eval v = Ret RErr -> lacks k tenors money
| lacks_price : forall u, asked u -> da_stock d u = None -> lacks k tenors money
| lacks_good_dividend : forall u v s, asked u -> da_div d u = Some v -> da_stock d u = Some s -> dividend_new eval v s = Ret RErr -> lacks k tenors money
| lacks_vol : forall u, vol_asked u -> da_const_vol d u = None -> da_surface d u = None -> lacks k tenors money
| lacks_borrowing_name : forall u, vol_asked u -> mp_borrowing mp u = None -> lacks k tenors money
| lacks_borrowing_curve : forall u n, vol_asked u -> mp_borrowing mp u = Some n -> ~ curve_asked n -> lacks k tenors money
| lacks_collateral_curve : forall u, vol_asked u -> mp_collateral mp u = Some dummy -> ~ asked dummy -> lacks k tenors money
| lacks_good_vol : forall u e, vol_asked u -> built_in u e -> (exists v, da_const_vol d u = Some v /\ with_constant_volatility e k v tenors money = Ret RErr) \/ (exists v, da_const_vol d u = None /\ da_surface d u = Some v /\ with_market_surface e k v tenors money = Ret RErr) -> lacks k tenors money
| lacks_good_surface : forall u e s, vol_asked u -> built_in u e -> match da_const_vol d u with Some v => with_constant_volatility e k v tenors money = Ret (ROk s) | None => exists v, da_surface d u = Some v /\ with_market_surface e k v tenors money = Ret (ROk s) end -> vol_build e s = Ret RErr -> lacks k tenors money
| lacks_fx_vol : forall p, pair_asked p -> da_fx_vol d (snd p) = None -> lacks k tenors money
| lacks_correlation : forall p, pair_asked p -> da_corr d p = None -> lacks k tenors money.
End Spec.
