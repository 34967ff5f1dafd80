(** QCurveModel.v -- the zero curve (quantlib/src/parameters/zero_curve.rs).

    [f32::exp] and [f32::ln] are the platform's; the model takes them as
    arguments and every theorem says what it needs of them.  The evaluation
    date is shared and may change between calls: the methods that read it take
    it as an argument.  Names, codes and logging are left out. *)
From Coq Require Import ZArith List Bool Ascii String.
From Flocq Require Import Core IEEE754.BinarySingleNaN.
From Verif Require Import Base CivilSpec FloatModel KrxModel QDateModel QPeriodModel QYearModel QFindModel QInterpModel QDivModel.
Import ListNotations.
Open Scope Z_scope.

(** enums.rs: Compounding *)
Inductive compounding : Type := CSimple | CContinuous.

(** zero_curve.rs 21-25: ZeroCurveInterpolator *)
Inductive rinterp : Type := RConst (c : f32) | RLin (l : linear).
(** zero_curve.rs 30-41: ZeroCurve *)
Record curve : Type := Curve { cv_interp : rinterp; cv_rates : list f32; cv_times : list f32; cv_factors : list f32; cv_disc : linear }.

(** zero_curve.rs 110-114: period_leteral *)
Definition tenors : list (list ascii) :=
  map list_ascii_of_string
  ["0D"; "1D"; "1W"; "2W"; "1M"; "2M"; "3M"; "4M"; "5M"; "6M"; "9M"; "1Y"; "1Y6M"; "2Y"; "2Y6M"; "3Y"; "4Y"; "5Y"; "6Y"; "7Y"; "8Y"; "9Y"; "10Y";
   "12Y"; "15Y"; "20Y"; "30Y"; "50Y"; "100Y"]%string.
(** zero_curve.rs 116-124: the time from the evaluation date to each of them *)
Definition curve_times (eval : odt) : outcome (list f32) :=
  map_outcome (fun p => let! d := add_period eval p in get_time_difference eval d) tenors.

Section Curve.
Context (f_exp f_ln : f32 -> f32).

(** zero_curve.rs 135-136, 232-233: exp(-(rate * time)), elementwise *)
Definition factors (rates times : list f32) : list f32 := map (fun p => f_exp (gneg (gmul (fst p) (snd p)))) (combine rates times).

(** zero_curve.rs 126-133 *)
Definition rates_at (r : rinterp) (times : list f32) : outcome (rresult (list f32)) :=
  match r with
  | RConst c => Ret (constant_vectorized c times)
  | RLin l => linear_vectorized l times
  end.

(** zero_curve.rs 60-157: new *)
Definition curve_new (eval : odt) (data : vector_data) : outcome (rresult curve) :=
  if negb (List.length (vd_times data) =? List.length (vd_value data))%nat then Ret RErr
  else
    let? r := match vd_value data with
              | [] => Ret RErr
              | [z] => Ret (ROk (RConst z))
              | _ => let? l := linear_new (vd_times data) (vd_value data) XFlat true in Ret (ROk (RLin l))
              end in
    let! times := curve_times eval in
    let? rates := rates_at r times in
    let fs := factors rates times in
    let? disc := linear_new times fs XNone false in
    Ret (ROk (Curve r rates times fs disc)).

(** zero_curve.rs 188-244: bump_time_interval; the result, and the curve as it
    is afterwards *)
Definition bump_times (c : curve) (time1 time2 : option f32) (bump : f32) : outcome (rresult unit * curve) :=
  let t1 := match time1 with None => gof_Z (-99999999) | Some t => t end in
  let t2 := match time2 with None => gof_Z 99999999 | Some t => t end in
  if negb (List.length (cv_rates c) =? List.length (cv_times c))%nat then Ret (RErr, c)
  else if o_gt fcmp t1 t2 then Ret (RErr, c)
  else
    let mask := map (fun x => if o_gt fcmp x t1 && o_le fcmp x t2 then gof_Z 1 else gof_Z 0) (cv_times c) in
    let rates := map (fun p => gadd (fst p) (gmul (snd p) bump)) (combine (cv_rates c) mask) in
    let c1 := Curve (cv_interp c) rates (cv_times c) (cv_factors c) (cv_disc c) in
    let! r := match rates with
              | [z] => Ret (ROk (RConst z))
              | _ => let? l := linear_new (cv_times c) rates XFlat true in Ret (ROk (RLin l))
              end in
    match r with
    | RErr => Ret (RErr, c1)
    | ROk ri =>
        let fs := factors rates (cv_times c) in
        let c2 := Curve ri rates (cv_times c) fs (cv_disc c) in
        let! d := linear_new (cv_times c) fs XNone false in
        match d with
        | RErr => Ret (RErr, c2)
        | ROk disc => Ret (ROk tt, Curve ri rates (cv_times c) fs disc)
        end
    end.
(** zero_curve.rs 163-181: bump_date_interval *)
Definition bump_dates (eval : odt) (c : curve) (date1 date2 : option odt) (bump : f32) : outcome (rresult unit * curve) :=
  let! t1 := match date1 with Some d => get_time_difference eval d | None => Ret (gof_Z (-99999999)) end in
  let! t2 := match date2 with Some d => get_time_difference eval d | None => Ret (gof_Z 99999999) end in
  bump_times c (Some t1) (Some t2) bump.

(** zero_curve.rs 250-271: dummy_curve *)
Definition dummy_curve : outcome (rresult curve) :=
  let eval := Odt 0 0 0 in
  let? data := vector_new [gof_Z 0] (Some [Odt (day_number 2080 1 1) 0 0]) None (Some eval) in
  curve_new eval data.

(** zero_curve.rs 272-274: get_discount_factor *)
Definition discount (c : curve) (t : f32) : outcome (rresult f32) := linear_interpolate (cv_disc c) t.
(** zero_curve.rs 276-282: get_vectorized_discount_factor_for_sorted_time *)
Definition discounts (c : curve) (ts : list f32) : outcome (rresult (list f32)) := linear_vectorized (cv_disc c) ts.
(** zero_curve.rs 284-302: get_discount_factor_at_date *)
Definition discount_at (eval : odt) (c : curve) (date : odt) : outcome (rresult f32) :=
  let! t := get_time_difference eval date in
  if o_lt fcmp t (gof_Z 0) then Ret RErr else discount c t.
(** zero_curve.rs 304-312: get_vectorized_discount_factor_for_sorted_dates *)
Definition discounts_at (eval : odt) (c : curve) (dates : list odt) : outcome (rresult (list f32)) := map_res (discount_at eval c) dates.
(** zero_curve.rs 314-327: get_discount_factor_between_times *)
Definition discount_between (c : curve) (t1 t2 : f32) : outcome (rresult f32) :=
  if o_le fcmp t1 t2 then
    let? b := discount c t2 in
    let? a := discount c t1 in
    Ret (ROk (gdiv b a))
  else Ret RErr.
(** the literals 1e-6, 1e-5 and 0.002737: the nearest f32, which one correctly
    rounded division of integers below 2^24 gives *)
Definition lit_1e_6 : f32 := gdiv (gof_Z 1) (gof_Z 1000000).
Definition lit_1e_5 : f32 := gdiv (gof_Z 1) (gof_Z 100000).
Definition lit_day : f32 := gdiv (gof_Z 2737) (gof_Z 1000000).
(** zero_curve.rs 329-367: get_forward_rate_between_times *)
Definition forward (c : curve) (t1 t2 : f32) (k : compounding) : outcome (rresult f32) :=
  if o_le fcmp t1 t2 then
    let tau := gsub t2 t1 in
    let? disc := if o_gt fcmp (Babs tau) lit_1e_6 then discount_between c t1 t2 else discount_between c t1 (gadd t2 lit_1e_5) in
    Ret (ROk match k with
             | CSimple => gdiv (gsub (gof_Z 1) disc) tau
             | CContinuous => gdiv (gneg (f_ln disc)) tau
             end)
  else Ret RErr.
(** zero_curve.rs 369-393: get_forward_rate_between_dates *)
Definition forward_dates (eval : odt) (c : curve) (date1 date2 : odt) (k : compounding) : outcome (rresult f32) :=
  if instant date2 <? instant date1 then Ret RErr
  else
    let! t1 := get_time_difference eval date1 in
    let! t2 := get_time_difference eval date2 in
    forward c t1 t2 k.
(** zero_curve.rs 395-409: get_forward_rate_from_evaluation_date *)
Definition forward_from (eval : odt) (c : curve) (date : odt) (k : compounding) : outcome (rresult f32) :=
  if instant date <? instant eval then Ret RErr else forward_dates eval c eval date k.
(** zero_curve.rs 411-416: get_short_rate_at_time *)
Definition short_rate (c : curve) (t : f32) : outcome (rresult f32) := forward c t (gadd t lit_day) CSimple.
(** zero_curve.rs 418-427: get_vectorized_short_rate_for_sorted_times *)
Definition short_rates (c : curve) (ts : list f32) : outcome (rresult (list f32)) := map_res (short_rate c) ts.
(** zero_curve.rs 428-433: get_instantaneous_forward_rate_from_date *)
Definition short_rate_from (eval : odt) (c : curve) (date : odt) : outcome (rresult f32) :=
  let! t := get_time_difference eval date in short_rate c t.
End Curve.
