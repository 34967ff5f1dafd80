(** QDecaySpec.v -- what an instrument is priced from after the evaluation date has been
    moved, straight from the data (C218). *)
From Coq Require Import ZArith List.
From Flocq Require Import Core IEEE754.BinarySingleNaN.
From Verif Require Import Base FloatModel KrxModel QDateModel QDivModel QDivSpec QVolModel QGenModel.
Import ListNotations.
Open Scope Z_scope.

(** a price of the time [t], carried to [d] over the dividends [l]: one after the other
    takes its share, or gives it back *)
Definition carried (l : list (odt * f32)) (t d : odt) (s : f32) : f32 :=
  if instant t <? instant d then fold_left (fun p y => gmul p (gsub (gof_Z 1) y)) (map snd (between t d l)) s
  else fold_left (fun p y => gdiv p (gsub (gof_Z 1) y)) (map snd (between d t l)) s.
(** a stock without dividends stays, its time included; another is carried, and its
    dividends are those seen from [d] *)
Definition stock_moved (d : odt) (x x' : f32 * odt * option dividend) : Prop :=
  match x with
  | (_, _, None) => x' = x
  | (s, t, Some dv) => exists dv', update_dividend dv d = Ret (ROk dv') /\ x' = (carried (dividend_ratio dv) t d s, d, Some dv')
  end.
(** the evaluation date becomes [d]; curves, volatilities, rates of exchange, quanto
    parameters and past fixings stay *)
Definition moved_to (d : odt) (v v' : view) : Prop :=
  vw_date v' = d /\ vw_curves v' = vw_curves v /\ vw_rate v' = vw_rate v /\ vw_quanto v' = vw_quanto v /\ vw_fixings v' = vw_fixings v /\
  option_map fst (vw_vol v') = option_map fst (vw_vol v) /\
  match vw_equity v, vw_equity v' with None, None => True | Some x, Some x' => stock_moved d x x' | _, _ => False end.
(** one date after the other *)
Fixpoint moved_through (es : list odt) (v v' : view) : Prop :=
  match es with [] => v' = v | e :: es' => exists v1, moved_to e v v1 /\ moved_through es' v1 v' end.
(** a stock carried through one date after the other *)
Fixpoint stock_through (es : list odt) (x x' : f32 * odt * option dividend) : Prop :=
  match es with [] => x' = x | e :: es' => exists x1, stock_moved e x x1 /\ stock_through es' x1 x' end.
