(** QSeekModel.v -- looking for the yield of a bond: the rest of
    quantlib/src/pricing_engines/krx_yield_pricer.rs.

    The search itself is argmin's (Executor, SteepestDescent with MoreThuenteLineSearch),
    which is not in the repository.  What is assumed of it: it costs some parameters by the
    cost function, keeps the one of least cost, ends when that cost is at most the target or
    when it wants to, tries at most max_iters parameters besides the one it begins with, and
    fails as soon as a call fails, or for reasons of its own. *)
From Coq Require Import ZArith List Bool.
From Flocq Require Import Core IEEE754.BinarySingleNaN.
From Verif Require Import Base FloatModel KrxModel QDateModel QInterpModel QCurveModel QBondModel.
Import ListNotations.
Open Scope Z_scope.

Definition order : Type := list (odt * f32) -> list (odt * f32).
Section Seek.
Context (f_ln : f32 -> f32) (f_powf : f32 -> f32 -> f32).
(** 19-25: the pricer; the day count is 30/360 always (38) *)
Record yield_pricer : Type := YieldPricer { yp_eval : odt; yp_yield : f32; yp_fwd : option curve; yp_past : option closes }.
(** 41-43 *)
Definition get_bond_yield (p : yield_pricer) : f32 := yp_yield p.
(** 45-47 *)
Definition set_bond_yield (p : yield_pricer) (y : f32) : yield_pricer := YieldPricer (yp_eval p) y (yp_fwd p) (yp_past p).
(** 108-162, with QBondModel.v.  The two orders are those in which the map of cash flows
    is gone through *)
Definition pricer_npv (o o' : order) (p : yield_pricer) (b : bond) : outcome (rresult f32) := yield_npv f_ln f_powf o o' (yp_eval p) (yp_fwd p) (yp_past p) (yp_yield p) b.
(** 68-72: the pricer is in a RefCell *)
Record cost_function : Type := CostFunction { ko_bond : bond; ko_npv : f32; ko_pricer : yield_pricer }.
(** 86-97: the pricer in the cell is set, and what it gives compared *)
Definition cost (o o' : order) (k : cost_function) (y : f32) : cost_function * outcome (rresult f32) :=
  let k' := CostFunction (ko_bond k) (ko_npv k) (set_bond_yield (ko_pricer k) y) in
  (k', let? x := pricer_npv o o' (ko_pricer k') (ko_bond k') in Ret (ROk (f_powf (gsub x (ko_npv k')) (gof_Z 2)))).
(** 104: 5.0e-5 *)
Definition step_h : f32 := gdiv (gof_Z 1) (gof_Z 20000).
(** 99-108: up, then down *)
Definition gradient (o1 o2 o3 o4 : order) (k : cost_function) (y : f32) : cost_function * outcome (rresult f32) :=
  let (k1, up) := cost o1 o2 k (gadd y step_h) in
  match up with
  | Ret (ROk u) => let (k2, down) := cost o3 o4 k1 (gsub y step_h) in (k2, let? d := down in Ret (ROk (gdiv (gsub u d) (gmul (gof_Z 2) step_h))))
  | _ => (k1, up)
  end.

(** ** The search of argmin *)
(** what it keeps: the parameter and its cost; another one is taken if it costs less, or
    if both costs are the same infinity *)
Definition better (c b : f32) : bool := glt c b || (negb (is_finite c) && negb (is_nan c) && geq c b).
Fixpoint best (tried : list (f32 * f32)) (kept : f32 * f32) : f32 * f32 :=
  match tried with [] => kept | s :: l => best l (if better (snd s) (snd kept) then s else kept) end.
(** 54: 0.02; 56: 30 and 1.0e-9 *)
Definition default_guess : f32 := gdiv (gof_Z 1) (gof_Z 50).
Definition max_iters : nat := 30.
Definition target_cost : f32 := gdiv (gof_Z 1) (gof_Z 1000000000).
(** the cost of a parameter as it may come out in the middle of a search: some yield is
    in the cell, and the map has some order *)
Definition costs (permutes : order -> Prop) (p : yield_pricer) (b : bond) (npv y c : f32) : Prop := exists o o' left_over, permutes o /\ permutes o' /\ snd (cost o o' (CostFunction b npv (set_bond_yield p left_over)) y) = Ret (ROk c).
(** 49-66: find_bond_yield.  The pricer is a clone, so there is nothing left of the search
    but its result; [None] of best_param (65) cannot be, as the first parameter is kept *)
Inductive finds (permutes : order -> Prop) (p : yield_pricer) (b : bond) (npv : f32) (guess : option f32) : rresult f32 -> Prop :=
| found : forall tried, let first := (match guess with Some g => g | None => default_guess end, B754_infinity false) in
    (length tried <= max_iters)%nat -> Forall (fun s => costs permutes p b npv (fst s) (snd s)) tried ->
    (forall n, (n < length tried)%nat -> gle (snd (best (firstn n tried) first)) target_cost = false) ->
    finds permutes p b npv guess (ROk (fst (best tried first)))
| lost : finds permutes p b npv guess RErr.
End Seek.
