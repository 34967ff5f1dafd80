(** QDivSpec.v -- what dividends do to prices, written down without the
    program's searching, dropping and rolling. *)
From Coq Require Import ZArith List Bool Reals.
From Flocq Require Import Core IEEE754.BinarySingleNaN.
From Verif Require Import Base FloatModel FloatFacts QDateModel.
Import ListNotations.
Open Scope Z_scope.

(** the product of the (1 - yield), multiplied up in order from 1 *)
Definition deduct (ys : list f32) : f32 := fold_left (fun acc y => gmul acc (gsub (gof_Z 1) y)) ys (gof_Z 1).
(** the dividends from the evaluation date on, up to and including the calendar
    day of [upto] *)
Definition coming (eval upto : odt) (l : list (odt * f32)) : list (odt * f32) :=
  List.filter (fun p => (instant eval <=? instant (fst p)) && (od_day (fst p) <=? od_day upto)) l.
(** the dividends after [a], up to and including [b] (points in time) *)
Definition between (a b : odt) (l : list (odt * f32)) : list (odt * f32) :=
  List.filter (fun p => (instant a <? instant (fst p)) && (instant (fst p) <=? instant b)) l.
(** the dates fall on increasing calendar days, and in order of time *)
Definition by_day (ds : list odt) : Prop := forall i j a b, (i < j)%nat -> nth_error ds i = Some a -> nth_error ds j = Some b -> od_day a < od_day b.
Definition in_time (ds : list odt) : Prop := forall i j a b, (i < j)%nat -> nth_error ds i = Some a -> nth_error ds j = Some b -> instant a <= instant b.

(** ** in real numbers *)
(** the factor a yield stands for: 1 - y, rounded to the nearest f32 *)
Definition factor (y : f32) : R := rnd 24 128 (1 - B2R y)%R.
(** a yield between 0 and 1 *)
Definition mild (y : f32) : Prop := is_finite y = true /\ (0 <= B2R y < 1)%R.
Fixpoint product (ys : list f32) : R := (match ys with [] => 1 | y :: ys' => factor y * product ys' end)%R.
(** the product of the factors of the dividends up to a point in time *)
Definition level (e : odt) (l : list (odt * f32)) : R := product (map snd (List.filter (fun p => instant (fst p) <=? instant e) l)).
(** how many dividends are passed, forward and back, on the way through [es] *)
Fixpoint crossings (l : list (odt * f32)) (from : odt) (es : list odt) : nat :=
  match es with [] => O | e :: es' => (length (between from e l) + length (between e from l) + crossings l e es')%nat end.
(** the last of the dates *)
Definition last_date (from : odt) (es : list odt) : odt := last es from.
