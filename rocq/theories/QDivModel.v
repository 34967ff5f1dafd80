(** QDivModel.v -- dividends, market prices and the evaluation date
    (quantlib/src/util.rs, data/vector_data.rs,
    parameters/discrete_ratio_dividend.rs, parameters/market_price.rs,
    evaluation_date.rs).

    Names, codes and currencies are carried along by the code and never
    looked at; they are left out, and so is logging. *)
From Coq Require Import ZArith List Bool Ascii.
From Flocq Require Import Core IEEE754.BinarySingleNaN.
From Verif Require Import Base FloatModel KrxModel QDateModel QPeriodModel QYearModel QFindModel QInterpModel.
Import ListNotations.
Open Scope Z_scope.

(** util.rs 5-11: min_offsetdatetime *)
Definition min_offsetdatetime (d1 d2 : odt) : odt := if instant d1 <? instant d2 then d1 else d2.
(** util.rs 42-48: to_yyyymmdd_int (years -9999..=9999 do not overflow an i32) *)
Definition to_yyyymmdd_int (d : odt) : Z := date_year (od_day d) * 10000 + date_month (od_day d) * 100 + date_day (od_day d).

(** data/vector_data.rs 11-20: VectorData *)
Record vector_data : Type := VectorData { vd_value : list f32; vd_dates : option (list odt); vd_times : list f32; vd_market : option odt }.
(** one outcome per element *)
Fixpoint map_outcome {A B} (f : A -> outcome B) (l : list A) : outcome (list B) :=
  match l with [] => Ret [] | x :: l' => let! y := f x in let! ys := map_outcome f l' in Ret (y :: ys) end.
(** vector_data.rs 42-113: new (of the two given, the dates win) *)
Definition vector_new (value : list f32) (dates : option (list odt)) (times : option (list f32)) (market : option odt) : outcome (rresult vector_data) :=
  match dates, times with
  | None, None => Ret RErr
  | Some ds, _ =>
      if negb (length value =? length ds)%nat then Ret RErr
      else match market with
           | None => Ret RErr
           | Some m => let! ts := map_outcome (get_time_difference m) ds in Ret (ROk (VectorData value (Some ds) ts (Some m)))
           end
  | None, Some ts =>
      if negb (length value =? length ts)%nat then Ret RErr else Ret (ROk (VectorData value None ts market))
  end.

(** i32's order *)
Definition zcmp (a b : Z) : option comparison := Some (a ?= b).
Definition one32 : f32 := gof_Z 1.

(** parameters/discrete_ratio_dividend.rs 15-19: DividendInterpolator *)
Inductive dinterp : Type := DStep (s : stepwise Z f32) | DConst (c : f32).
(** 21-33: DiscreteRatioDividend (without the shared evaluation date, which is
    only handed out) *)
Record dividend : Type := Dividend { dv_dates : list odt; dv_ints : list Z; dv_amounts : list f32; dv_yields : list f32; dv_interp : dinterp; dv_spot : f32 }.

(** [Vec::remove(i)]: panics out of bounds *)
Fixpoint remove_at {A} (l : list A) (i : nat) : outcome (list A) :=
  match l, i with
  | [], _ => Panic
  | _ :: l', O => Ret l'
  | x :: l', S k => let! r := remove_at l' k in Ret (x :: r)
  end.
(** 84-100, 247-264: the loop that drops the dividends before the evaluation
    date: [i] and [checker] as in the code (the copy of the dates is shortened
    with the others).  A turn increases one of the two and [checker] stays in
    bounds, so twice the length is enough; a theorem says so. *)
Fixpoint drop_loop (fuel : nat) (dates : list odt) (eval : odt) (i checker : nat) (copy : list odt) (yields : list f32) (ints : list Z)
  : outcome (list f32 * list Z) :=
  match fuel with
  | O => Diverge
  | S k =>
      if (i <? length dates)%nat then
        let! d := at_ dates checker in
        if instant d <? instant eval then
          let! copy' := remove_at copy i in
          let! yields' := remove_at yields i in
          let! ints' := remove_at ints i in
          drop_loop k dates eval i (checker + 1) copy' yields' ints'
        else drop_loop k dates eval (i + 1) checker copy yields ints
      else Ret (yields, ints)
  end.
Definition drop_past (dates : list odt) (eval : odt) (yields : list f32) (ints : list Z) : outcome (list f32 * list Z) :=
  drop_loop (2 * length dates + 1) dates eval 0 0 dates yields ints.
(** 102-108, 219-224, 266-272: the running products of 1 - yield *)
Fixpoint running (temp : f32) (yields : list f32) : list f32 :=
  match yields with [] => [] | y :: ys => let t := gmul temp (gsub one32 y) in t :: running t ys end.
(** 110-124, 228-242, 274-288: the interpolator of the ratios *)
Definition make_interp (ints : list Z) (ratios : list f32) : outcome (rresult dinterp) :=
  match ratios with
  | [] => Ret (ROk (DConst one32))
  | _ :: _ =>
      let! last := at_ ratios (length ratios - 1) in
      let? s := stepwise_new zcmp ints ratios true (Some one32) (Some last) in
      Ret (ROk (DStep s))
  end.
(** 51-138: new *)
Definition dividend_new (eval : odt) (data : vector_data) (spot : f32) : outcome (rresult dividend) :=
  match vd_dates data with
  | None => Ret RErr
  | Some [] => Ret RErr
  | Some ds =>
      let amounts := vd_value data in
      let yields := map (fun a => gdiv a spot) amounts in
      let ints := map to_yyyymmdd_int ds in
      let! yi := drop_past ds eval yields ints in
      let? interp := make_interp (snd yi) (running one32 (fst yi)) in
      Ret (ROk (Dividend ds ints amounts yields interp spot))
  end.
(** 140-146: get_deduction_ratio *)
Definition deduction_ratio (v : dividend) (date : odt) : outcome (rresult f32) :=
  match dv_interp v with
  | DConst c => Ret (constant_interpolate c (to_yyyymmdd_int date))
  | DStep s => stepwise_interpolate zcmp s (to_yyyymmdd_int date)
  end.
(** 148-159: get_vectorized_deduction_ratio_for_sorted_datetime *)
Definition deduction_ratios (v : dividend) (dates : list odt) : outcome (rresult (list f32)) := map_res (deduction_ratio v) dates.
(** 169-175: get_dividend *)
Definition get_dividend (v : dividend) : list (odt * f32) := combine (dv_dates v) (map (fun y => gmul (dv_spot v) y) (dv_yields v)).
(** 177-183: get_dividend_ratio *)
Definition dividend_ratio (v : dividend) : list (odt * f32) := combine (dv_dates v) (dv_yields v).
(** 187-244: bump_date_interval; the result, and the object as it is afterwards *)
Definition bump_dividend (v : dividend) (date1 date2 : option odt) (bump : f32) : outcome (rresult unit * dividend) :=
  let d1 := match date1 with None => -99999999 | Some d => to_yyyymmdd_int d end in
  let d2 := match date2 with None => 99999999 | Some d => to_yyyymmdd_int d end in
  if d2 <=? d1 then Ret (RErr, v)
  else
    let mask := map (fun x => if (d1 <? x) && (x <=? d2) then one32 else gof_Z 0) (dv_ints v) in
    let amounts := map (fun p => gadd (fst p) (gmul (snd p) bump)) (combine (dv_amounts v) mask) in
    let yields := map (fun a => gdiv a (dv_spot v)) amounts in
    let v1 := Dividend (dv_dates v) (dv_ints v) amounts yields (dv_interp v) (dv_spot v) in
    let! r := make_interp (dv_ints v) (running one32 yields) in
    match r with
    | RErr => Ret (RErr, v1)
    | ROk it => Ret (ROk tt, Dividend (dv_dates v) (dv_ints v) amounts yields it (dv_spot v))
    end.
(** 246-290: update_evaluation_date *)
Definition update_dividend (v : dividend) (eval : odt) : outcome (rresult dividend) :=
  let! yi := drop_past (dv_dates v) eval (dv_yields v) (dv_ints v) in
  let? it := make_interp (snd yi) (running one32 (fst yi)) in
  Ret (ROk (Dividend (dv_dates v) (dv_ints v) (dv_amounts v) (dv_yields v) it (dv_spot v))).

(** ** parameters/market_price.rs 14-22: MarketPrice; the dividend is a
    reference to a shared object: here its list of dates and yields, which
    update_evaluation_date does not change, is looked up when needed *)
Record market_price : Type := MarketPrice { mp_value : f32; mp_dt : odt; mp_div : option nat }.
(** 91-102: the market date moves forward over dividends *)
Fixpoint roll_forward (divs : list (odt * f32)) (from upto : odt) (value : f32) : f32 :=
  match divs with
  | [] => value
  | (d, y) :: divs' =>
      roll_forward divs' from upto (if (instant from <? instant d) && (instant d <=? instant upto) then gmul value (gsub one32 y) else value)
  end.
(** 103-114: and back *)
Fixpoint roll_back (divs : list (odt * f32)) (from upto : odt) (value : f32) : f32 :=
  match divs with
  | [] => value
  | (d, y) :: divs' =>
      roll_back divs' from upto (if (instant upto <? instant d) && (instant d <=? instant from) then gdiv value (gsub one32 y) else value)
  end.
(** 88-118: update_evaluation_date; [divs] is what the price's dividend, if any,
    lists *)
Definition roll_price (divs : option (list (odt * f32))) (m : market_price) (eval : odt) : market_price :=
  match divs with
  | None => m
  | Some ds =>
      if instant (mp_dt m) <? instant eval
      then MarketPrice (roll_forward ds (mp_dt m) eval (mp_value m)) eval (mp_div m)
      else MarketPrice (roll_back ds (mp_dt m) eval (mp_value m)) eval (mp_div m)
  end.
(** 79-86: get_dividend_deduction_ratio *)
Definition price_deduction_ratio (v : option dividend) (date : odt) : outcome (rresult f32) :=
  match v with Some v => deduction_ratio v date | None => Ret (ROk one32) end.

(** ** evaluation_date.rs 16-23: EvaluationDate, with the objects its observers
    refer to *)
Record world : Type := World { w_date : odt; w_prices : list market_price; w_dividends : list dividend; w_pobs : list nat; w_dobs : list nat }.
Definition the_divs (w : world) (m : market_price) : option (list (odt * f32)) :=
  match mp_div m with None => None | Some k => match nth_error (w_dividends w) k with Some v => Some (dividend_ratio v) | None => None end end.
(** 101-109: the market prices are told first, in the order they were added *)
Fixpoint notify_prices (obs : list nat) (w : world) : world :=
  match obs with
  | [] => w
  | k :: obs' =>
      notify_prices obs' (match nth_error (w_prices w) k with
                          | Some m => World (w_date w) (set_nth (w_prices w) k (roll_price (the_divs w m) m (w_date w))) (w_dividends w) (w_pobs w) (w_dobs w)
                          | None => w end)
  end.
(** 111-118: then the dividends; [expect] panics on an error *)
Fixpoint notify_dividends (obs : list nat) (w : world) : outcome world :=
  match obs with
  | [] => Ret w
  | k :: obs' =>
      match nth_error (w_dividends w) k with
      | None => notify_dividends obs' w
      | Some v =>
          let! r := update_dividend v (w_date w) in
          match r with
          | RErr => Panic
          | ROk v' => notify_dividends obs' (World (w_date w) (w_prices w) (set_nth (w_dividends w) k v') (w_pobs w) (w_dobs w))
          end
      end
  end.
(** 88-91: set_date *)
Definition set_date (w : world) (d : odt) : outcome world :=
  let w1 := World d (w_prices w) (w_dividends w) (w_pobs w) (w_dobs w) in
  notify_dividends (w_dobs w1) (notify_prices (w_pobs w1) w1).
(** 134-146: [+=] and [-=] *)
Definition add_assign (w : world) (s : list ascii) : outcome world := let! d := add_period (w_date w) s in set_date w d.
Definition sub_assign (w : world) (s : list ascii) : outcome world := let! d := sub_period (w_date w) s in set_date w d.
(** 93-99: add_dividend_observer, add_marketprice_observer *)
Definition observe_price (w : world) (k : nat) : world := World (w_date w) (w_prices w) (w_dividends w) (w_pobs w ++ [k]) (w_dobs w).
Definition observe_dividend (w : world) (k : nat) : world := World (w_date w) (w_prices w) (w_dividends w) (w_pobs w) (w_dobs w ++ [k]).
