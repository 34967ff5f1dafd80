(** EwmaModel.v -- trading-engine/src/feature/weight.rs and
    weighted_valuation.rs. *)
From Coq Require Import ZArith List Bool.
From Flocq Require Import IEEE754.BinarySingleNaN.
From Verif Require Import Base ClockModel FloatModel.
Import ListNotations.
Open Scope Z_scope.

(** timestamp.rs 22-31 *)
Inductive time_scale : Type := Micro | Milli | Second | Minute | Hour | Day.
(** weight.rs 9-13 *)
Record ts_weight : Type := TsWeight { tw_weight : f64; tw_scale : time_scale }.

(** timestamp.rs 178-211: the float step of [diff_in_*]. *)
Definition diff_real (m : build) (scale a b : Z) : outcome f64 :=
  let! (q, r) := diff_in m scale a b in
  Ret (gadd (gof_Z q) (gdiv (gof_Z r) (gof_Z scale))).

(** weight.rs 17-25: the match on the scale. *)
Definition scale_nanos (s : time_scale) : Z :=
  match s with
  | Minute => minute_scale
  | Milli => milli_scale
  | Hour => hour_scale
  | Day => day_scale
  | Micro => micro_scale
  | Second => second_scale
  end.

Section Powf.
(** The platform's [f64::powf]. *)
Variable powf : f64 -> f64 -> f64.

(** weight.rs 16-28: [apply] *)
Definition weight_apply (m : build) (w : ts_weight) (prev_ts current_ts : Z) : outcome f64 :=
  let! diff := diff_real m (scale_nanos (tw_scale w)) current_ts prev_ts in
  Ret (powf (tw_weight w) diff).
(** weight.rs 30-40 *)
Definition current_weight (w : f64) : f64 := gsub (gof_Z 1) w.
Definition previous_weight (w : f64) : f64 := w.

(** weighted_valuation.rs 6-11 *)
Record ewma_state : Type := EwmaState { ew_weight : ts_weight; ew_time : Z; ew_value : f64 }.
(** weighted_valuation.rs 23-29 *)
Definition ewma_new (w : ts_weight) (value : f64) (t : Z) : ewma_state := EwmaState w t value.
(** weighted_valuation.rs 31-36: [update]; [self.timestamp] is not assigned. *)
Definition ewma_update (m : build) (s : ewma_state) (x : f64) (t : Z) : outcome ewma_state :=
  let! w := weight_apply m (ew_weight s) (ew_time s) t in
  Ret (EwmaState (ew_weight s) (ew_time s)
         (gadd (gmul (previous_weight w) (ew_value s)) (gmul (current_weight w) x))).
(** weighted_valuation.rs 38-41 *)
Definition ewma_get (s : ewma_state) : f64 := ew_value s.

(** A history of updates: (timestamp, value). *)
Fixpoint ewma_run (m : build) (s : ewma_state) (l : list (Z * f64)) : outcome ewma_state :=
  match l with
  | [] => Ret s
  | (t, x) :: r => let! s' := ewma_update m s x t in ewma_run m s' r
  end.

(** weighted_valuation.rs 48-53 *)
Record ewms_state : Type := EwmsState { es_weight : ts_weight; es_sum : f64; es_time : Z }.
(** weighted_valuation.rs 66-73 *)
Definition ewms_new (w : ts_weight) (t : Z) : ewms_state := EwmsState w gzero t.
(** weighted_valuation.rs 75-79: [update]; [self.timestamp] is not assigned. *)
Definition ewms_update (m : build) (s : ewms_state) (x : f64) (t : Z) : outcome ewms_state :=
  let! w := weight_apply m (es_weight s) (es_time s) t in
  Ret (EwmsState (es_weight s) (gadd (gmul (previous_weight w) (es_sum s)) x) (es_time s)).
Fixpoint ewms_run (m : build) (s : ewms_state) (l : list (Z * f64)) : outcome ewms_state :=
  match l with
  | [] => Ret s
  | (t, x) :: r => let! s' := ewms_update m s x t in ewms_run m s' r
  end.
End Powf.
