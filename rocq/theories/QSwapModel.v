(** QSwapModel.v -- plain swaps and their pricer.

    Maps and iteration orders as in QBondModel.v.  Names and codes are left
    out, and so is the text of errors. *)
From Coq Require Import ZArith List Bool Ascii.
From Flocq Require Import Core IEEE754.BinarySingleNaN.
From Verif Require Import Base CivilSpec FloatModel KrxModel QDateModel QCalModel QPeriodModel QYearModel QSchedModel QInterpModel QDivModel QCurveModel QBondModel QMoneyModel.
Import ListNotations.
Open Scope Z_scope.

(** instruments/plain_swap.rs 15-22: PlainSwapType *)
Inductive swap_type : Type := IRS | CRS | FxSwap | FxForward | FxSpot.
(** plain_swap.rs 43-80: PlainSwap.  The rate index is its tenor. *)
Record swap : Type := Swap {
  sw_fixed_rows : list row; sw_float_rows : list row; sw_rate : option f32; sw_index : option (list ascii); sw_comp : option (list ascii); sw_cal : any_calendar; sw_notional : f32;
  sw_issue : odt; sw_effective : odt; sw_maturity : odt; sw_fixed_ccy : currency; sw_float_ccy : currency; sw_fx : option fx_code;
  sw_init_fixed : option f32; sw_init_float : option f32; sw_last_fixed : option f32; sw_last_float : option f32;
  sw_fixed_dc : day_count; sw_float_dc : day_count; sw_fixed_conv : convention; sw_float_conv : convention; sw_fixed_freq : frequency; sw_float_freq : frequency;
  sw_fix_gap : Z; sw_pay_gap : Z; sw_kind : swap_type }.

(** [is_some], [is_none], [is_empty] *)
Definition some {A} (o : option A) : bool := match o with Some _ => true | None => false end.
Definition none {A} (o : option A) : bool := negb (some o).
Definition empty {A} (l : list A) : bool := match l with [] => true | _ => false end.
(** plain_swap.rs 127-201 (new), 330-403 (new_from_conventions): the kind of
    swap; [one_ccy] is what the first branch asks about the currencies.  Lines
    176, 378: [Date + Duration] panics outside the range of dates. *)
Definition classify (one_ccy : bool) (fixed_rows float_rows : list row) (rate : option f32) (index : option (list ascii)) (issue maturity : odt) (fixed_ccy float_ccy : currency)
  (init_fixed init_float last_fixed last_float : option f32) : outcome (rresult swap_type) :=
  if none init_fixed && none init_float && none last_fixed && none last_float && some index && some rate && one_ccy then Ret (ROk IRS)
  else if some init_fixed && some init_float && some last_fixed && some last_float && some index && some rate && negb (ccy_eqb fixed_ccy float_ccy) then Ret (ROk CRS)
  else if some init_fixed && some init_float && some last_fixed && some last_float && empty fixed_rows && empty float_rows && none index && none rate && negb (ccy_eqb fixed_ccy float_ccy) then Ret (ROk FxSwap)
  else if none init_fixed && none init_float && some last_fixed && some last_float && empty fixed_rows && empty float_rows && none index && none rate && negb (ccy_eqb fixed_ccy float_ccy) then
    let! spot := date_add (od_day issue) 2 in Ret (ROk (if od_day maturity <=? spot then FxSpot else FxForward))
  else Ret RErr.
(** plain_swap.rs 203-206, 405-408: the pair *)
Definition swap_pair (fixed_ccy float_ccy : currency) : option fx_code := if ccy_eqb fixed_ccy float_ccy then None else Some (FxCode float_ccy fixed_ccy).
(** plain_swap.rs 91-247: new *)
Definition swap_new (fixed_rows float_rows : list row) (rate : option f32) (index comp : option (list ascii)) (a : any_calendar) (notional : f32) (issue effective maturity : odt) (fixed_ccy float_ccy : currency)
  (init_fixed init_float last_fixed last_float : option f32) (fixed_dc float_dc : day_count) (fixed_conv float_conv : convention) (fixed_freq float_freq : frequency) (fix_gap pay_gap : Z) : outcome (rresult swap) :=
  let? k := classify (ccy_eqb fixed_ccy float_ccy) fixed_rows float_rows rate index issue maturity fixed_ccy float_ccy init_fixed init_float last_fixed last_float in
  Ret (ROk (Swap fixed_rows float_rows rate index comp a notional issue effective maturity fixed_ccy float_ccy (swap_pair fixed_ccy float_ccy) init_fixed init_float last_fixed last_float
    fixed_dc float_dc fixed_conv float_conv fixed_freq float_freq fix_gap pay_gap k)).
(** plain_swap.rs 257-447: new_from_conventions *)
Definition swap_from_conventions (m : build) (fixed_ccy float_ccy : currency) (init_fixed init_float last_fixed last_float : option f32) (notional : f32) (issue effective maturity : odt)
  (rate : option f32) (index comp : option (list ascii)) (forward : bool) (fixed_dc float_dc : day_count) (fixed_conv float_conv : convention) (fixed_freq float_freq : frequency)
  (fix_gap pay_gap : Z) (a : any_calendar) : outcome (rresult swap) :=
  let? c1 := build_schedule m forward effective maturity a fixed_conv fixed_freq fix_gap pay_gap in
  let? c2 := build_schedule m forward effective maturity a float_conv float_freq fix_gap pay_gap in
  let fixed_rows := map (fun c => Row c None) c1 in
  let float_rows := map (fun c => Row c None) c2 in
  let? k := classify true fixed_rows float_rows rate index issue maturity fixed_ccy float_ccy init_fixed init_float last_fixed last_float in
  Ret (ROk (Swap fixed_rows float_rows rate index comp a notional issue effective maturity fixed_ccy float_ccy (swap_pair fixed_ccy float_ccy) init_fixed init_float last_fixed last_float
    fixed_dc float_dc fixed_conv float_conv fixed_freq float_freq fix_gap pay_gap k)).

(** ** Cash flows *)
(** plain_swap.rs 474-492: the loop over the fixed legs *)
Fixpoint fixed_loop (s : swap) (rate initial : f32) (rows : list row) (pricing : odt) (res : list (odt * f32)) : outcome (rresult (list (odt * f32))) :=
  match rows with
  | [] => Ret (ROk res)
  | r :: rows' =>
      let c := rw_dates r in
      if od_day (payment_date c) <? od_day pricing then fixed_loop s rate initial rows' pricing res
      else
        let? frac := year_fraction (sw_cal s) (calc_start_date c) (calc_end_date c) (sw_fixed_dc s) in
        fixed_loop s rate initial rows' pricing (cash_add (payment_date c) (gmul (gmul (gneg rate) frac) initial) res)
  end.
(** plain_swap.rs 451-495: get_fixed_cashflows *)
Definition fixed_cashflows (s : swap) (pricing : odt) : outcome (rresult (list (odt * f32))) :=
  let initial := match sw_init_fixed s with Some v => v | None => gof_Z 1 end in
  let res := if (od_day pricing <=? od_day (sw_effective s)) && some (sw_init_fixed s) then date_insert (sw_effective s) initial [] else [] in
  let res := if od_day pricing <=? od_day (sw_maturity s) then match sw_last_fixed s with Some v => date_insert (sw_maturity s) (gneg v) res | None => res end else res in
  match sw_rate s with
  | None => Ret (ROk res)
  | Some rate => if empty (sw_fixed_rows s) then Ret (ROk res) else fixed_loop s rate initial (sw_fixed_rows s) pricing res
  end.
Section Floating.
Context (f_ln : f32 -> f32).
(** plain_swap.rs 522-546: the loop over the floating legs *)
Fixpoint float_loop (s : swap) (tenor : list ascii) (initial : f32) (rows : list row) (eval pricing : odt) (fwd : option curve) (past : option closes) (res : list (odt * f32))
  : outcome (rresult (list (odt * f32))) :=
  match rows with
  | [] => Ret (ROk res)
  | r :: rows' =>
      let c := rw_dates r in
      if od_day (payment_date c) <? od_day pricing then float_loop s tenor initial rows' eval pricing fwd past res
      else
        match fwd with
        | None => Panic
        | Some fc =>
            let? x := coupon_amount f_ln tenor c None eval fc (match past with Some p => p | None => no_closes end) pricing (sw_comp s) (sw_cal s) (sw_float_dc s) (sw_fix_gap s) in
            float_loop s tenor initial rows' eval pricing fwd past (cash_add (payment_date c) (gmul x initial) res)
        end
  end.
(** plain_swap.rs 497-549: get_floating_cashflows *)
Definition float_cashflows (s : swap) (eval pricing : odt) (fwd : option curve) (past : option closes) : outcome (rresult (list (odt * f32))) :=
  let '(initial, res) :=
    match (if od_day pricing <=? od_day (sw_effective s) then sw_init_float s else None) with
    | Some v => (v, date_insert (sw_effective s) (gneg v) [])
    | None => (gof_Z 1, [])
    end in
  let res := if od_day pricing <=? od_day (sw_maturity s) then match sw_last_float s with Some v => date_insert (sw_maturity s) v res | None => res end else res in
  match sw_index s with
  | None => Ret (ROk res)
  | Some tenor => if empty (sw_float_rows s) then Ret (ROk res) else float_loop s tenor initial (sw_float_rows s) eval pricing fwd past res
  end.

(** ** The pricer *)
(** pricing_engines/plain_swap_pricer.rs 44-47, 100-103: the rate of exchange *)
Definition fx_rate (fx : option f32) : f32 := match fx with Some x => x | None => gof_Z 1 end.
(** plain_swap_pricer.rs 105-135, 140-166: what the legs are worth, each in its
    currency; the loops over the cash flows (119-125, 127-133, 154-160, 162-168)
    are the [discounted] of QBondModel.v from the evaluation date on *)
Definition leg_values (order1 order2 : list (odt * f32) -> list (odt * f32)) (eval : odt) (fixed_disc float_disc : curve) (fwd : option curve) (past : option closes) (s : swap) : outcome (rresult (f32 * f32)) :=
  let? m1 := fixed_cashflows s eval in
  let? m2 := float_cashflows s eval eval fwd past in
  let? v1 := discounted (order1 m1) eval fixed_disc eval (gof_Z 0) in
  let? v2 := discounted (order2 m2) eval float_disc eval (gof_Z 0) in
  Ret (ROk (v1, v2)).
(** plain_swap_pricer.rs 99-137: npv *)
Definition swap_npv (order1 order2 : list (odt * f32) -> list (odt * f32)) (eval : odt) (fixed_disc float_disc : curve) (fwd : option curve) (past : option closes) (fx : option f32) (s : swap) : outcome (rresult f32) :=
  let? v := leg_values order1 order2 eval fixed_disc float_disc fwd past s in
  Ret (ROk (gadd (fst v) (gmul (snd v) (fx_rate fx)))).
(** plain_swap_pricer.rs 66-77, 79-90: a loop of npv_result from [count] on;
    the amounts of the floating legs are listed times the rate [times] *)
Fixpoint swap_listed (times : option f32) (l : list (odt * f32)) (count : Z) (eval : odt) (disc : curve) (r : npv_result) : outcome (rresult (Z * npv_result)) :=
  match l with
  | [] => Ret (ROk (count, r))
  | (d, x) :: l' =>
      let? r1 := (if od_day eval <? od_day d then
                    let? y := discount_at eval disc d in Ret (ROk (NpvResult (gadd (nr_npv r) (gmul x y)) (nr_amounts r) (nr_probs r)))
                  else Ret (ROk r)) in
      if od_day eval <=? od_day d then
        let shown := match times with Some f => gmul x f | None => x end in
        swap_listed times l' (count + 1) eval disc (NpvResult (nr_npv r1) (hm_insert count (d, shown) (nr_amounts r1)) (hm_insert count (d, gof_Z 1) (nr_probs r1)))
      else swap_listed times l' count eval disc r1
  end.
(** plain_swap_pricer.rs 43-97: npv_result *)
Definition swap_npv_result (order1 order2 : list (odt * f32) -> list (odt * f32)) (eval : odt) (fixed_disc float_disc : curve) (fwd : option curve) (past : option closes) (fx : option f32) (s : swap) : outcome (rresult npv_result) :=
  let? m1 := fixed_cashflows s eval in
  let? m2 := float_cashflows s eval eval fwd past in
  let? p1 := swap_listed None (order1 m1) 0 eval fixed_disc (NpvResult (gof_Z 0) [] []) in
  let '(count, r1) := p1 in
  let? p2 := swap_listed (Some (fx_rate fx)) (order2 m2) count eval float_disc (NpvResult (gof_Z 0) (nr_amounts r1) (nr_probs r1)) in
  let '(_, r2) := p2 in
  Ret (ROk (NpvResult (gadd (nr_npv r1) (gmul (nr_npv r2) (fx_rate fx))) (nr_amounts r2) (nr_probs r2))).
(** [res.entry(ccy).and_modify(|v| *v += x).or_insert(x)] *)
Fixpoint ccy_add (c : currency) (x : f32) (m : list (currency * f32)) : list (currency * f32) :=
  match m with [] => [(c, x)] | (d, v) :: m' => if ccy_eqb d c then (d, gadd v x) :: m' else (d, v) :: ccy_add c x m' end.
(** plain_swap_pricer.rs 139-185: fx_exposure *)
Definition swap_exposure (order1 order2 : list (odt * f32) -> list (odt * f32)) (eval : odt) (fixed_disc float_disc : curve) (fwd : option curve) (past : option closes) (s : swap) : outcome (rresult (list (currency * f32))) :=
  let? v := leg_values order1 order2 eval fixed_disc float_disc fwd past s in
  Ret (ROk (ccy_add (sw_float_ccy s) (gmul (snd v) (sw_notional s)) (ccy_add (sw_fixed_ccy s) (gmul (fst v) (sw_notional s)) []))).
End Floating.
