(** TickModel.v -- trading-engine/src/feature/tick.rs and the float
    conversions of utils/numeric_converter.rs, on IEEE doubles. *)
From Coq Require Import ZArith List Bool Lia.
From Flocq Require Import IEEE754.BinarySingleNaN.
From Verif Require Import Base KrxModel FloatModel.
Import ListNotations.
Open Scope Z_scope.

(** numeric_converter.rs 294-305: the two fields the conversions read;
    [nc_dec] is [decimal_number_point_length_i32] (never negative, 384). *)
Record float_conv : Type := FloatConv { nc_norm : option Z; nc_dec : Z }.
(** numeric_converter.rs 510-514 *)
Record order_fconv : Type := OrderFConv { fc_price : float_conv; fc_quantity : float_conv }.

(** [10_f64.powi(k)]: the correctly rounded power; exact for 0..22, and the
    theorems use no other exponent. *)
Definition powi10 (k : Z) : f64 :=
  if 0 <=? k then gof_Z (10 ^ k) else gdiv (gof_Z 1) (gof_Z (10 ^ (- k))).

(** [10_i64.pow(k as u32)]: 10^19 does not fit. *)
Definition pow10_i64 (m : build) (k : Z) : outcome Z :=
  let e := k mod 2 ^ 32 in
  if e <=? 18 then Ret (10 ^ e)
  else match m with
       | Checked => Panic
       | Wrapping => Ret (let w := (if e <=? 63 then 10 ^ e else 0) mod two64 in
                          if w <? 2 ^ 63 then w else w - two64)
       end.
(** [10_u64.pow(k as u32)] *)
Definition pow10_u64 (m : build) (k : Z) : outcome Z :=
  let e := k mod 2 ^ 32 in
  if e <=? 19 then Ret (10 ^ e)
  else match m with
       | Checked => Panic
       | Wrapping => Ret ((if e <=? 63 then 10 ^ e else 0) mod two64)
       end.

(** numeric_converter.rs 69-80: [div_rem], [div_rem_u64]: truncating, panics
    on a zero divisor. *)
Definition div_rem (a d : Z) : outcome (Z * Z) :=
  if d =? 0 then Panic else Ret (Z.quot a d, a - Z.quot a d * d).

(** numeric_converter.rs 442-449: [to_f64_from_i64], [to_f64_from_u64] *)
Definition to_f64 (c : float_conv) (v : Z) : f64 := gdiv (gof_Z v) (powi10 (nc_dec c)).

(** numeric_converter.rs 462-473 (the i32 addition is kept exact: its operands
    are small configuration constants). *)
Definition normalized_i64 (m : build) (c : float_conv) (v : Z) : outcome f64 :=
  match nc_norm c with
  | Some n =>
      let k := n + nc_dec c in
      let denominator := powi10 k in
      let! d := pow10_i64 m k in
      let! (q, r) := div_rem v d in
      Ret (gadd (gof_Z q) (gdiv (gof_Z r) denominator))
  | None => Ret (to_f64 c v)
  end.
(** numeric_converter.rs 476-487 *)
Definition normalized_u64 (m : build) (c : float_conv) (v : Z) : outcome f64 :=
  match nc_norm c with
  | Some n =>
      let k := n + nc_dec c in
      let denominator := powi10 k in
      let! d := pow10_u64 m k in
      let! (q, r) := div_rem v d in
      Ret (gadd (gof_Z q) (gdiv (gof_Z r) denominator))
  | None => Ret (to_f64 c v)
  end.

(** A level of a market data snapshot: book price and book quantity
    (types/base.rs 134-; the other fields are not read here). *)
Definition book_level : Type := (Z * Z)%type.
(** data/quote.rs 22-39 and data/trade_quote.rs: the fields read here. *)
Record book_snapshot : Type := BookSnapshot {
  bs_bids : list book_level; bs_asks : list book_level; bs_cut : nat;
  bs_time : Z; bs_sys : Z; bs_conv : order_fconv }.

(** tick.rs 58-62 *)
Record slevel : Type := SLevel { sl_price : f64; sl_qty : f64 }.
(** tick.rs 66-74 *)
Record squotes : Type := SQuotes {
  sq_bids : list slevel; sq_asks : list slevel; sq_cut : nat;
  sq_time : Z; sq_sys : Z; sq_conv : order_fconv }.

(** tick.rs 171-174 (and 177-180, 200-203, 206-209) *)
Definition conv_level (m : build) (c : order_fconv) (l : book_level) : outcome slevel :=
  let! p := normalized_i64 m (fc_price c) (fst l) in
  let! q := normalized_u64 m (fc_quantity c) (snd l) in
  Ret (SLevel p q).

(** [iter().map(..).collect()] *)
Fixpoint conv_levels (m : build) (c : order_fconv) (l : list book_level) : outcome (list slevel) :=
  match l with
  | [] => Ret []
  | x :: r => let! y := conv_level m c x in let! ys := conv_levels m c r in Ret (y :: ys)
  end.

(** data/quote.rs 80-88: [&v[..cut]] *)
Definition effective (l : list book_level) (cut : nat) : outcome (list book_level) :=
  if (cut <=? length l)%nat then Ret (firstn cut l) else Panic.

(** tick.rs 164-191: [new_from_quote_sanpshot] *)
Definition new_from_quote (m : build) (d : book_snapshot) : outcome squotes :=
  let! eb := effective (bs_bids d) (bs_cut d) in
  let n := Nat.min (length eb) (bs_cut d) in
  let! bids := conv_levels m (bs_conv d) (firstn n eb) in
  let! ea := effective (bs_asks d) (bs_cut d) in
  let! asks := conv_levels m (bs_conv d) (firstn n ea) in
  Ret (SQuotes bids asks (bs_cut d) (bs_time d) (bs_sys d) (bs_conv d)).

(** tick.rs 193-220: [new_from_trade_quote_snapshot] *)
Definition new_from_trade_quote (m : build) (d : book_snapshot) : outcome squotes :=
  let n := Nat.min (length (bs_bids d)) (bs_cut d) in
  let! bids := conv_levels m (bs_conv d) (firstn n (bs_bids d)) in
  let! asks := conv_levels m (bs_conv d) (firstn n (bs_asks d)) in
  Ret (SQuotes bids asks (bs_cut d) (bs_time d) (bs_sys d) (bs_conv d)).

(** tick.rs 91-101: [with_capacity]; [c]: the default converter. *)
Definition sq_with_capacity (c : order_fconv) (n : nat) : squotes := SQuotes [] [] n 0 0 c.
(** tick.rs 76-88 *)
Definition sq_default (c : order_fconv) : squotes := SQuotes [] [] 0 0 0 c.

(** tick.rs 241-251: assignments to the first [n] levels of one side; an index
    out of range on either side panics. *)
Fixpoint overwrite (m : build) (c : order_fconv) (n : nat) (old : list slevel) (new : list book_level)
    : outcome (list slevel) :=
  match n with
  | O => Ret old
  | S n' =>
      match old, new with
      | _ :: old', x :: new' =>
          let! y := conv_level m c x in
          let! ys := overwrite m c n' old' new' in
          Ret (y :: ys)
      | _, _ => Panic
      end
  end.

(** tick.rs 222-254: [update_trade_quote_snapshot] *)
Definition update_trade_quote (m : build) (s : squotes) (d : book_snapshot) : outcome (rresult squotes) :=
  if (bs_cut d <? sq_cut s)%nat then Ret RErr
  else
    let! bids := overwrite m (bs_conv d) (sq_cut s) (sq_bids s) (bs_bids d) in
    let! asks := overwrite m (bs_conv d) (sq_cut s) (sq_asks s) (bs_asks d) in
    Ret (ROk (SQuotes bids asks (sq_cut s) (bs_time d) (sq_sys s) (bs_conv d))).

(** tick.rs 256-288: [update_quote_snapshot]: the slices are taken inside the
    loop, so only if it runs at all. *)
Definition update_quote (m : build) (s : squotes) (d : book_snapshot) : outcome (rresult squotes) :=
  if (bs_cut d <? sq_cut s)%nat then Ret RErr
  else
    let! eb := match sq_cut s with O => Ret [] | _ => effective (bs_bids d) (bs_cut d) end in
    let! ea := match sq_cut s with O => Ret [] | _ => effective (bs_asks d) (bs_cut d) end in
    let! bids := overwrite m (bs_conv d) (sq_cut s) (sq_bids s) eb in
    let! asks := overwrite m (bs_conv d) (sq_cut s) (sq_asks s) ea in
    Ret (ROk (SQuotes bids asks (sq_cut s) (bs_time d) (sq_sys s) (bs_conv d))).

(** tick.rs 144-162: [best_ask_price], [best_bid_price] *)
Fixpoint first_traded (l : list slevel) : option f64 :=
  match l with
  | [] => None
  | x :: r => if glt gzero (sl_qty x) then Some (sl_price x) else first_traded r
  end.
Definition best_ask_price (s : squotes) : option f64 := first_traded (sq_asks s).
Definition best_bid_price (s : squotes) : option f64 := first_traded (sq_bids s).

(** tick.rs 132-142: [mid_price]: the nested loops. *)
Fixpoint mid_inner (a : slevel) (bids : list slevel) : option f64 :=
  match bids with
  | [] => None
  | b :: r => if glt gzero (sl_qty a) && glt gzero (sl_qty b)
              then Some (gdiv (gadd (sl_price a) (sl_price b)) (gof_Z 2))
              else mid_inner a r
  end.
Fixpoint mid_outer (asks bids : list slevel) : option f64 :=
  match asks with
  | [] => None
  | a :: r => match mid_inner a bids with Some x => Some x | None => mid_outer r bids end
  end.
Definition mid_price (s : squotes) : option f64 := mid_outer (sq_asks s) (sq_bids s).

(** tick.rs 104-129: [vwap]; [f64::EPSILON] = 2^-52. *)
Definition f64_epsilon : f64 := binary_normalize 53 1024 p53 e1024 mode_NE 1 (-52) false.
Definition vwap_norm : f64 := gof_Z 100.
Fixpoint vwap_sum (l : list slevel) (qty value : f64) : f64 * f64 :=
  match l with
  | [] => (qty, value)
  | x :: r => vwap_sum r (gadd qty (sl_qty x))
                (gadd value (gdiv (gmul (sl_price x) (sl_qty x)) vwap_norm))
  end.
Definition vwap (s : squotes) : option f64 :=
  let (q1, v1) := vwap_sum (sq_asks s) gzero gzero in
  if glt q1 f64_epsilon then None
  else
    let (q2, v2) := vwap_sum (sq_bids s) q1 v1 in
    if glt q2 f64_epsilon then None
    else Some (gmul (gdiv v2 q2) vwap_norm).

(** tick.rs 297-322 (and its copies): the guards and the two indexings. *)
Definition ofi_levels (level : nat) (s a : squotes) (side : squotes -> list slevel)
    : outcome (rresult (slevel * slevel)) :=
  match level with
  | O => Ret RErr
  | S i =>
      if (sq_cut s <? level)%nat || (sq_cut a <? level)%nat then Ret RErr
      else match nth_error (side s) i, nth_error (side a) i with
           | Some p, Some c => Ret (ROk (p, c))
           | _, _ => Panic
           end
  end.

(** tick.rs 292-333 *)
Definition bid_ofi (s : squotes) (level : nat) (a : squotes) : outcome (rresult f64) :=
  let? (p, c) := ofi_levels level s a sq_bids in
  Ret (ROk (if glt (sl_price p) (sl_price c) then sl_qty c
            else if geq (sl_price c) (sl_price p) then gsub (sl_qty c) (sl_qty p)
            else gneg (sl_qty p))).
(** tick.rs 335-376 *)
Definition ask_ofi (s : squotes) (level : nat) (a : squotes) : outcome (rresult f64) :=
  let? (p, c) := ofi_levels level s a sq_asks in
  Ret (ROk (if glt (sl_price p) (sl_price c) then gneg (sl_qty p)
            else if geq (sl_price c) (sl_price p) then gsub (sl_qty c) (sl_qty p)
            else sl_qty c)).
(** tick.rs 516-525 *)
Definition ofi (s : squotes) (level : nat) (a : squotes) : outcome (rresult f64) :=
  let? b := bid_ofi s level a in
  let? k := ask_ofi s level a in
  Ret (ROk (gsub b k)).

(** The logarithmic variants; [ln] is the platform's [f64::ln]. *)
Section Ln.
Variable ln : f64 -> f64.
(** tick.rs 378-446 *)
Definition ask_ln_ofi (s : squotes) (level : nat) (a : squotes) : outcome (rresult f64) :=
  let? (p, c) := ofi_levels level s a sq_asks in
  Ret (ROk (
    if glt (sl_price p) (sl_price c) then
      if glt gzero (sl_qty c) then gneg (ln (sl_qty p)) else gzero
    else if geq (sl_price c) (sl_price p) then
      if glt gzero (sl_qty p) then ln (gdiv (sl_qty c) (sl_qty p)) else gzero
    else
      if glt gzero (sl_qty c) then ln (sl_qty c) else gzero)).
(** tick.rs 448-514 *)
Definition bid_ln_ofi (s : squotes) (level : nat) (a : squotes) : outcome (rresult f64) :=
  let? (p, c) := ofi_levels level s a sq_bids in
  Ret (ROk (
    if glt (sl_price p) (sl_price c) then
      if glt gzero (sl_qty c) then ln (sl_qty c) else gzero
    else if geq (sl_price c) (sl_price p) then
      if glt gzero (sl_qty p) then ln (gdiv (sl_qty c) (sl_qty p)) else gzero
    else
      if glt gzero (sl_qty c) then gneg (ln (sl_qty p)) else gzero)).
(** tick.rs 527-536 *)
Definition ln_ofi (s : squotes) (level : nat) (a : squotes) : outcome (rresult f64) :=
  let? b := bid_ln_ofi s level a in
  let? k := ask_ln_ofi s level a in
  Ret (ROk (gsub b k)).
End Ln.

(** tick.rs 23-56: [TradePrice]. *)
Record trade_price : Type := TradePrice { tp_value : f64; tp_time : Z; tp_conv : float_conv }.
Record trade_data : Type := TradeData { td_price : Z; td_time : Z; td_conv : order_fconv }.
(** tick.rs 42-50, data/trade.rs 76-78 *)
Definition trade_price_new (m : build) (d : trade_data) : outcome trade_price :=
  let! v := normalized_i64 m (fc_price (td_conv d)) (td_price d) in
  Ret (TradePrice v (td_time d) (fc_price (td_conv d))).
(** tick.rs 52-55 *)
Definition trade_price_update (m : build) (t : trade_price) (d : trade_data) : outcome trade_price :=
  let! v := normalized_i64 m (fc_price (td_conv d)) (td_price d) in
  Ret (TradePrice v (td_time d) (tp_conv t)).
