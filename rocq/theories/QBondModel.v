(** QBondModel.v -- past prices, rate indices, bonds, their pricers and the
    Korean treasury bond future of quantlib.

    A [HashMap] is the list of its entries, in order of insertion; wherever the
    code iterates over one, the model takes the order of the iteration as an
    argument ([order], some permutation), and theorems hold for every order.
    [OffsetDateTime]s are equal (and hash the same) when they are the same
    point in time.  [f32::ln], [powi] and [powf] are arguments, as in
    QCurveModel.v.  The curves refer to the shared evaluation date: it is the
    argument [eval].  Names, codes, currencies, ratings and printed warnings are
    left out. *)
From Coq Require Import ZArith List Bool Ascii.
From Flocq Require Import Core IEEE754.BinarySingleNaN.
From Verif Require Import Base CivilSpec FloatModel KrxModel QDateModel QCalModel QPeriodModel QYearModel QSchedModel QInterpModel QDivModel QCurveModel.
Import ListNotations.
Open Scope Z_scope.

(** ** Past prices *)

(** [HashMap::get] with dates as keys *)
Fixpoint lookup {V} (k : Z) (l : list (Z * V)) : option V :=
  match l with [] => None | (a, v) :: l' => if a =? k then Some v else lookup k l' end.
(** [HashMap::insert] *)
Fixpoint hm_insert {V} (k : Z) (v : V) (l : list (Z * V)) : list (Z * V) :=
  match l with [] => [(k, v)] | (a, w) :: l' => if a =? k then (a, v) :: l' else (a, w) :: hm_insert k v l' end.
(** parameters/past_price.rs 13-21: DailyClosePrice (data/daily_value_data.rs
    9-16: DailyValueData has the same fields); the close is the nanosecond of
    the day *)
Record closes : Type := Closes { cp_value : list (Z * f32); cp_close : Z; cp_off : Z; cp_cal : calendar }.
(** past_price.rs 23-35: default *)
Definition no_closes : closes := Closes [] ((15 * 3600 + 40 * 60) * 1000000000) (9 * 3600) (new_south_korea KrKrx).
(** past_price.rs 79-81: get *)
Definition close_on (p : closes) (day : Z) : option f32 := lookup day (cp_value p).
(** past_price.rs 85-101: get_at_datetime *)
Definition close_at (p : closes) (d : odt) : outcome (option f32) :=
  let! l := to_offset (cp_off p) d in
  if cp_close p <? od_ns l then
    let! n := add_days l 1 in
    let! r := adjust (One (cp_cal p)) n Following in
    match r with RErr => Panic | ROk x => Ret (close_on p (od_day x)) end
  else Ret (close_on p (od_day l)).
(** daily_value_data.rs 81-83: insert *)
Definition record_close (p : closes) (day : Z) (v : f32) : closes := Closes (hm_insert day v (cp_value p)) (cp_close p) (cp_off p) (cp_cal p).
(** [sort_by] on the dates: a stable sort *)
Fixpoint sort_in (x : Z * f32) (l : list (Z * f32)) : list (Z * f32) :=
  match l with [] => [x] | y :: l' => if fst x <=? fst y then x :: y :: l' else y :: sort_in x l' end.
Definition sort_by_date (l : list (Z * f32)) : list (Z * f32) := fold_right sort_in [] l.
(** past_price.rs 120-130, daily_value_data.rs 90-100: the data ordered by date *)
Definition ordered_closes (order : list (Z * f32) -> list (Z * f32)) (p : closes) : list Z * list f32 :=
  let l := sort_by_date (order (cp_value p)) in (map fst l, map snd l).

(** ** Coupons *)
Section Bonds.
Context (f_ln : f32 -> f32).

(** instruments/schedule.rs 16-23: BaseSchedule *)
Record row : Type := Row { rw_dates : coupon; rw_amount : option f32 }.

(** parameters/rate_index.rs 92-132: a coupon that is fixed once *)
Definition term_coupon (tenor : list ascii) (c : coupon) (spread : f32) (eval : odt) (fwd : curve) (past : closes) (pricing : odt)
  (a : any_calendar) (dc : day_count) : outcome (rresult f32) :=
  let! curve_end := add_period (fixing_date c) tenor in
  let? res := if instant (fixing_date c) <? instant pricing then
                match close_on past (od_day (fixing_date c)) with
                | Some r => Ret (ROk r)
                | None => forward_from f_ln eval fwd curve_end CSimple
                end
              else forward_dates f_ln eval fwd (fixing_date c) curve_end CSimple in
  let? frac := year_fraction a (calc_start_date c) (calc_end_date c) dc in
  Ret (ROk (gmul (gadd res spread) frac)).
(** rate_index.rs 136-164: an overnight coupon that has not begun to fix *)
Definition future_overnight (tenor : list ascii) (c : coupon) (spread : f32) (eval : odt) (fwd : curve)
  (a : any_calendar) (dc : day_count) (fixing_days : Z) : outcome (rresult f32) :=
  let! e1 := add_period (fixing_date c) tenor in
  let? r1 := forward_dates f_ln eval fwd (fixing_date c) e1 CSimple in
  let! lf := add_days (calc_end_date c) (- fixing_days) in
  let! e2 := add_period lf tenor in
  let? r2 := forward_dates f_ln eval fwd lf e2 CSimple in
  let rate := gdiv (gadd r1 r2) (gof_Z 2) in
  let? frac := year_fraction a (calc_start_date c) (calc_end_date c) dc in
  Ret (ROk (gmul (gadd rate spread) frac)).
(** rate_index.rs 180-217: a turn of the compounding loop; the state is the
    start of the sub-period and the compounded value *)
Definition overnight_turn (tenor comp : list ascii) (upto : odt) (spread : f32) (eval : odt) (fwd : curve) (past : closes) (pricing : odt)
  (a : any_calendar) (dc : day_count) (fixing_days : Z) (spot : f32) (st : odt * f32) : turn (odt * f32) (rresult f32) :=
  let '(start, v) := st in
  if instant start <? instant upto then
    turn_bind (add_days start (- fixing_days)) (fun fd =>
    turn_bind (adjust a fd Preceding) (fun fx =>
    match fx with
    | RErr => Stop (Ret RErr)
    | ROk fixing =>
        turn_bind (add_period start comp) (fun n =>
        let next := min_offsetdatetime n upto in
        turn_bind (year_fraction a start next dc) (fun fr =>
        match fr with
        | RErr => Stop (Ret RErr)
        | ROk frac =>
            turn_bind (if instant fixing <? instant pricing
                       then Ret (ROk match close_on past (od_day fixing) with Some r => r | None => spot end)
                       else let! fe := add_period fixing tenor in forward_dates f_ln eval fwd fixing fe CSimple) (fun rr =>
            match rr with
            | RErr => Stop (Ret RErr)
            | ROk rate => Next (next, gmul v (gadd (gof_Z 1) (gmul (gadd rate spread) frac)))
            end)
        end))
    end))
  else Stop (Ret (ROk (gsub v (gof_Z 1)))).
(** rate_index.rs 165-220: an overnight coupon that has begun to fix *)
Definition running_overnight (tenor comp : list ascii) (c : coupon) (spread : f32) (eval : odt) (fwd : curve) (past : closes) (pricing : odt)
  (a : any_calendar) (dc : day_count) (fixing_days : Z) : outcome (rresult f32) :=
  let! spot_end := add_period pricing comp in
  let? spot := forward_dates f_ln eval fwd pricing spot_end CSimple in
  while_loop (overnight_turn tenor comp (calc_end_date c) spread eval fwd past pricing a dc fixing_days spot) (calc_start_date c, gof_Z 1).
(** rate_index.rs 77-223: get_coupon_amount *)
Definition coupon_amount (tenor : list ascii) (c : coupon) (spread : option f32) (eval : odt) (fwd : curve) (past : closes) (pricing : odt)
  (comp : option (list ascii)) (a : any_calendar) (dc : day_count) (fixing_days : Z) : outcome (rresult f32) :=
  let spread := match spread with Some s => s | None => gof_Z 0 end in
  match comp with
  | None => term_coupon tenor c spread eval fwd past pricing a dc
  | Some k =>
      if instant pricing <=? instant (fixing_date c) then future_overnight tenor c spread eval fwd a dc fixing_days
      else running_overnight tenor k c spread eval fwd past pricing a dc fixing_days
  end.

(** ** Bonds *)

(** instruments/bond.rs 20-51: Bond.  The rate index is its tenor. *)
Record bond : Type := Bond {
  bd_notional : f32; bd_strip : bool; bd_rows : list row; bd_fixed : option f32; bd_spread : option f32; bd_index : option (list ascii);
  bd_comp : option (list ascii); bd_issue : odt; bd_effective : odt; bd_pricing : option odt; bd_maturity : odt; bd_cal : any_calendar; bd_dc : day_count;
  bd_conv : convention; bd_freq : frequency; bd_pay_gap : Z; bd_fix_gap : Z }.
(** bond.rs 55-139: new *)
Definition bond_new (notional : f32) (strip : bool) (rows : list row) (fixed spread : option f32) (index comp : option (list ascii)) (issue effective : odt)
  (pricing : option odt) (maturity : odt) (a : any_calendar) (dc : day_count) (cv : convention) (f : frequency) (pay_gap fix_gap : Z) : rresult bond :=
  match fixed, index with
  | None, None => RErr
  | Some _, Some _ => RErr
  | _, _ => ROk (Bond notional strip rows fixed spread index comp issue effective pricing maturity a dc cv f pay_gap fix_gap)
  end.
(** bond.rs 142-228: new_from_conventions *)
Definition bond_from_conventions (m : build) (notional : f32) (strip : bool) (issue effective : odt) (pricing : option odt) (maturity : odt) (fixed spread : option f32)
  (index comp : option (list ascii)) (a : any_calendar) (forward : bool) (dc : day_count) (cv : convention) (f : frequency) (fix_gap pay_gap : Z) : outcome (rresult bond) :=
  let? cs := build_schedule m forward effective maturity a cv f fix_gap pay_gap in
  Ret (ROk (Bond notional strip (map (fun c => Row c None) cs) fixed spread index comp issue effective pricing maturity a dc cv f pay_gap fix_gap)).

(** [res.entry(date).and_modify(|e| *e += amount).or_insert(amount)] *)
Fixpoint cash_add (date : odt) (amount : f32) (m : list (odt * f32)) : list (odt * f32) :=
  match m with
  | [] => [(date, amount)]
  | (d, v) :: m' => if instant d =? instant date then (d, gadd v amount) :: m' else (d, v) :: cash_add date amount m'
  end.
(** bond.rs 316-361: the amount of a row *)
Definition row_amount (b : bond) (r : row) (eval : odt) (fwd : option curve) (past : option closes) (pricing : odt) : outcome (rresult f32) :=
  match rw_amount r with
  | Some a => Ret (ROk a)
  | None =>
      match bd_index b with
      | Some tenor =>
          match fwd with
          | None => Panic
          | Some fc => coupon_amount tenor (rw_dates r) (bd_spread b) eval fc (match past with Some p => p | None => no_closes end) pricing (bd_comp b) (bd_cal b) (bd_dc b) (bd_fix_gap b)
          end
      | None =>
          let? frac := year_fraction (bd_cal b) (calc_start_date (rw_dates r)) (calc_end_date (rw_dates r)) (bd_dc b) in
          match bd_fixed b with None => Panic | Some rate => Ret (ROk (gmul frac rate)) end
      end
  end.
(** bond.rs 309-363: the loop over the schedule *)
Fixpoint cash_rows (b : bond) (rows : list row) (eval : odt) (fwd : option curve) (past : option closes) (pricing : odt) (res : list (odt * f32)) : outcome (rresult (list (odt * f32))) :=
  match rows with
  | [] => Ret (ROk res)
  | r :: rows' =>
      if od_day (payment_date (rw_dates r)) <? od_day pricing then cash_rows b rows' eval fwd past pricing res
      else let? x := row_amount b r eval fwd past pricing in cash_rows b rows' eval fwd past pricing (cash_add (payment_date (rw_dates r)) x res)
  end.
(** bond.rs 302-372: get_cashflows *)
Definition cashflows (b : bond) (eval pricing : odt) (fwd : option curve) (past : option closes) : outcome (rresult (list (odt * f32))) :=
  let? res := cash_rows b (bd_rows b) eval fwd past pricing [] in
  Ret (ROk (if negb (bd_strip b) && (od_day pricing <=? od_day (bd_maturity b)) then cash_add (bd_maturity b) (gof_Z 1) res else res)).

(** ** The bond pricer *)

(** [instrument.get_pricing_date()?.unwrap_or(&eval_dt)] *)
Definition pricing_of (b : bond) (eval : odt) : odt := match bd_pricing b with Some d => d | None => eval end.
(** pricing_engines/bond_pricer.rs 54-62: the sum over the cash flows *)
Fixpoint discounted (l : list (odt * f32)) (eval : odt) (disc : curve) (pricing : odt) (res : f32) : outcome (rresult f32) :=
  match l with
  | [] => Ret (ROk res)
  | (d, x) :: l' =>
      if od_day pricing <? od_day d then
        let? y := discount_at eval disc d in discounted l' eval disc pricing (gadd res (gmul x y))
      else discounted l' eval disc pricing res
  end.
(** bond_pricer.rs 40-69: npv *)
Definition bond_npv (order : list (odt * f32) -> list (odt * f32)) (eval : odt) (disc : curve) (fwd : option curve) (past : option closes) (b : bond) : outcome (rresult f32) :=
  let pricing := pricing_of b eval in
  let? m := cashflows b eval pricing fwd past in
  let? s := discounted (order m) eval disc pricing (gof_Z 0) in
  let? y := discount_at eval disc pricing in
  Ret (ROk (gdiv s y)).

(** pricing_engines/npv_result.rs 13-17: NpvResult, the two maps as entries *)
Record npv_result : Type := NpvResult { nr_npv : f32; nr_amounts : list (Z * (odt * f32)); nr_probs : list (Z * (odt * f32)) }.
(** npv_result.rs 52-58: new_from_npv *)
Definition result_of_npv (x : f32) : npv_result := NpvResult x [] [].
(** bond_pricer.rs 89-103: the loop of npv_result, from index [i] *)
Fixpoint listed (l : list (odt * f32)) (i : Z) (eval : odt) (disc : curve) (pricing : odt) (r : npv_result) : outcome (rresult npv_result) :=
  match l with
  | [] => Ret (ROk r)
  | (d, x) :: l' =>
      let? r1 := (if od_day pricing <? od_day d then
                    let? y := discount_at eval disc d in Ret (ROk (NpvResult (gadd (nr_npv r) (gmul x y)) (nr_amounts r) (nr_probs r)))
                  else Ret (ROk r)) in
      let r2 := if od_day pricing <=? od_day d then NpvResult (nr_npv r1) (hm_insert i (d, x) (nr_amounts r1)) (hm_insert i (d, gof_Z 1) (nr_probs r1)) else r1 in
      listed l' (i + 1) eval disc pricing r2
  end.
(** bond_pricer.rs 71-114: npv_result *)
Definition bond_npv_result (order : list (odt * f32) -> list (odt * f32)) (eval : odt) (disc : curve) (fwd : option curve) (past : option closes) (b : bond) : outcome (rresult npv_result) :=
  let pricing := pricing_of b eval in
  let? m := cashflows b eval pricing fwd past in
  let? r := listed (order m) 0 eval disc pricing (NpvResult (gof_Z 0) [] []) in
  let? y := discount_at eval disc pricing in
  Ret (ROk (NpvResult (gdiv (nr_npv r) y) (nr_amounts r) (nr_probs r))).
(** [HashMap::insert] with dates as keys: the key of the first entry stays *)
Fixpoint date_insert (date : odt) (v : f32) (m : list (odt * f32)) : list (odt * f32) :=
  match m with [] => [(date, v)] | (d, w) :: m' => if instant d =? instant date then (d, v) :: m' else (d, w) :: date_insert date v m' end.
(** npv_result.rs 76-86: get_expected_coupon_amount *)
Fixpoint expected_loop (l : list (Z * (odt * f32))) (probs : list (Z * (odt * f32))) (res : list (odt * f32)) : rresult (list (odt * f32)) :=
  match l with
  | [] => ROk res
  | (i, (d, x)) :: l' => match lookup i probs with None => RErr | Some (_, p) => expected_loop l' probs (date_insert d (gmul x p) res) end
  end.
Definition expected_coupons (order : list (Z * (odt * f32)) -> list (Z * (odt * f32))) (r : npv_result) : rresult (list (odt * f32)) :=
  expected_loop (order (nr_amounts r)) (nr_probs r) [].
End Bonds.

(** ** Yields *)
Section Yields.
Context (f_ln : f32 -> f32) (f_powf : f32 -> f32 -> f32) (f_powi : f32 -> Z -> f32).

(** time/conventions.rs 28-41: the discriminants; 44-46: as_real *)
Definition freq_number (f : frequency) : Z :=
  match f with
  | Daily => 252 | Weekly => 52 | BiWeekly => 26 | SemiMonthly => 24 | Monthly => 12 | SemiQuarterly => 6 | Quarterly => 4 | TriAnnually => 3
  | SemiAnnually => 2 | Annually => 1 | NoFrequency => 0
  end.
Definition as_real (f : frequency) : f32 := gof_Z (freq_number f).

(** [iter().min()], [iter().max()] on dates: the first of the least, the last of the greatest *)
Fixpoint earliest (l : list odt) : option odt :=
  match l with [] => None | d :: l' => match earliest l' with None => Some d | Some e => Some (if instant e <? instant d then e else d) end end.
Fixpoint latest (l : list odt) : option odt :=
  match l with [] => None | d :: l' => match latest l' with None => Some d | Some e => Some (if instant e <? instant d then d else e) end end.
(** pricing_engines/krx_yield_pricer.rs 134-140 *)
Fixpoint yield_sum (l : list (odt * f32)) (a : any_calendar) (pricing first : odt) (y freq : f32) (res : f32) : outcome (rresult f32) :=
  match l with
  | [] => Ret (ROk res)
  | (d, x) :: l' =>
      if od_day d <=? od_day pricing then yield_sum l' a pricing first y freq res
      else
        let? diff := year_fraction a first d StreetConvention in
        let disc := gdiv (gof_Z 1) (f_powf (gadd (gof_Z 1) y) (gmul diff freq)) in
        yield_sum l' a pricing first y freq (gadd res (gmul x disc))
  end.
(** krx_yield_pricer.rs 108-162: npv.  [keys().min()] runs over the map in the
    order of an iteration; the dates are distinct points in time. *)
Definition yield_npv (order order' : list (odt * f32) -> list (odt * f32)) (eval : odt) (fwd : option curve) (past : option closes) (bond_yield : f32) (b : bond) : outcome (rresult f32) :=
  let pricing := pricing_of b eval in
  let freq := as_real (bd_freq b) in
  let y := gdiv bond_yield freq in
  let? m := cashflows f_ln b eval pricing fwd past in
  let first := match earliest (filter (fun d => od_day pricing <? od_day d) (map fst (order m))) with Some d => d | None => bd_maturity b end in
  let? s := yield_sum (order' m) (bd_cal b) pricing first y freq (gof_Z 0) in
  let d := od_day first - od_day pricing in
  let previous := match latest (filter (fun d => od_day d <=? od_day pricing) (map (fun r => payment_date (rw_dates r)) (bd_rows b))) with Some d => d | None => bd_issue b end in
  let k := od_day first - od_day previous in
  let frac := gdiv (gof_Z d) (gof_Z k) in
  Ret (ROk (gdiv s (gadd (gof_Z 1) (gmul y frac)))).

(** instruments/ktbf.rs 12-17: KtbfVirtualBond *)
Record virtual_bond : Type := VirtualBond { vb_year : Z; vb_coupon : f32; vb_freq : frequency; vb_notional : f32 }.
(** ktbf.rs 42-45: [for i in 1..=n], from [i] on *)
Fixpoint coupon_sum (k : nat) (i : Z) (c y : f32) (res : f32) : f32 :=
  match k with O => res | S k' => coupon_sum k' (i + 1) c y (gadd res (gdiv c (f_powi (gadd (gof_Z 1) y) i))) end.
(** ktbf.rs 36-48: npv; the product of i32 panics or wraps *)
Definition virtual_npv (m : build) (v : virtual_bond) (bond_yield : f32) : outcome f32 :=
  let p := vb_year v * freq_number (vb_freq v) in
  let! n := if (-2147483648 <=? p) && (p <=? 2147483647) then Ret p else match m with Checked => Panic | Wrapping => Ret (as_i32 p) end in
  let freq := as_real (vb_freq v) in
  let y := gdiv bond_yield freq in
  let c := gdiv (vb_coupon v) freq in
  let s := coupon_sum (Z.to_nat n) 1 c y (gof_Z 0) in
  Ret (gmul (gadd s (gdiv (gof_Z 1) (f_powi (gadd (gof_Z 1) y) n))) (vb_notional v)).

(** ktbf.rs 51-62: KTBF *)
Record ktbf : Type := Ktbf { kb_notional : f32; kb_maturity : odt; kb_settlement : odt; kb_virtual : virtual_bond; kb_bonds : list bond }.
(** ktbf.rs 66-117: new; [==] on dates compares points in time *)
Fixpoint bonds_fit (l : list bond) (maturity : odt) : bool :=
  match l with
  | [] => true
  | b :: l' => match bd_pricing b with None => false | Some d => if instant d =? instant maturity then bonds_fit l' maturity else false end
  end.
Definition ktbf_new (notional : f32) (maturity settlement : odt) (v : virtual_bond) (bonds : list bond) : rresult ktbf :=
  if bonds_fit bonds maturity then ROk (Ktbf notional maturity settlement v bonds) else RErr.
(** pricing_engines/ktbf_pricer.rs 34-76: npv.  [find] stands for
    find_bond_yield (krx_yield_pricer.rs 50-66), a steepest descent of the
    crate argmin: from the bond, its price and a first guess, a yield or an
    error. *)
Definition ktbf_npv (m : build) (find : bond -> f32 -> f32 -> outcome (rresult f32)) (order : list (odt * f32) -> list (odt * f32)) (eval : odt) (disc borrow : curve) (k : ktbf)
  : outcome (rresult f32) :=
  match kb_bonds k with
  | [] => Panic
  | b0 :: _ =>
      let? guess := forward_from f_ln eval disc (bd_maturity b0) CSimple in
      let? ys := map_res (fun b => let? x := bond_npv f_ln order eval disc None None b in find b x guess) (kb_bonds k) in
      let average := gdiv (fold_left gadd ys (gof_Z 0)) (gof_Z (Z.of_nat (length ys))) in
      let! price := virtual_npv m (kb_virtual k) average in
      let? d := discount_at eval borrow (kb_maturity k) in
      Ret (ROk (gmul price d))
  end.
End Yields.
