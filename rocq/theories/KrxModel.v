(** KrxModel.v -- the KRX message parsers of trading-engine/src/data/krx.

    A payload is a [slice] (NumModel.v).  [now] is the value of
    [get_unix_nano()], the receive time.  The instrument id of a snapshot is
    modelled by its ISIN bytes (venue is always KRX; interning of ids is not
    part of this file).  Static converters ([Lazy]) are rebuilt at each use:
    their constructors are pure.

    Results: [Ret (ROk x)] = Ok(x), [Ret RErr] = Err(_), [Panic] = panic (or an
    out-of-allocation read).  The [_buffer] functions return the new buffer and
    date generator; every [?] of their bodies comes before the first write, so
    [RErr] leaves both unchanged. *)
From Coq Require Import ZArith List Lia Bool.
From Verif Require Import Base OBTypes NumModel.
Import ListNotations.
Open Scope Z_scope.

(** Propagation of [Err] with [?] inside [outcome]. *)
Definition rbind {A B} (x : outcome (rresult A)) (f : A -> outcome (rresult B)) : outcome (rresult B) :=
  match x with
  | Ret (ROk a) => f a
  | Ret RErr => Ret RErr
  | Panic => Panic
  | Diverge => Diverge
  end.
Notation "'let?' x ':=' e1 'in' e2" :=
  (rbind e1 (fun x => e2))
  (at level 200, x pattern, e1 at level 100, e2 at level 200).

(** [Result::expect] *)
Definition expect {A} (r : rresult A) : outcome A :=
  match r with ROk a => Ret a | RErr => Panic end.

(** The bytes of a slice. *)
Definition slice_list (u : slice) : list Z := map (s_at u) (seq 0 (s_len u)).

(** [a == b] on byte slices *)
Fixpoint bytes_eqb (a b : list Z) : bool :=
  match a, b with
  | [], [] => true
  | x :: a', y :: b' => (x =? y) && bytes_eqb a' b'
  | _, _ => false
  end.

(** [std::str::from_utf8(b).is_ok()]: well-formed UTF-8 (Unicode table 3-7),
    as the standard library checks it. *)
Definition cont (b : Z) : bool := (128 <=? b) && (b <=? 191).
Definition within (lo b hi : Z) : bool := (lo <=? b) && (b <=? hi).
Fixpoint utf8_valid (l : list Z) : bool :=
  match l with
  | [] => true
  | a :: t =>
    if a <? 128 then utf8_valid t
    else if within 194 a 223 then
      match t with b :: t' => cont b && utf8_valid t' | _ => false end
    else if within 224 a 239 then
      match t with
      | b :: c :: t' =>
        (if a =? 224 then within 160 b 191 else if a =? 237 then within 128 b 159 else cont b)
        && cont c && utf8_valid t'
      | _ => false end
    else if within 240 a 244 then
      match t with
      | b :: c :: d :: t' =>
        (if a =? 240 then within 144 b 191 else if a =? 244 then within 128 b 143 else cont b)
        && cont c && cont d && utf8_valid t'
      | _ => false end
    else false
  end.

(** * Converters *)

(** numeric_converter.rs 510-514 *)
Record order_conv := OrderConv { oc_price : converter; oc_quantity : converter }.

Definition order_converter (price quantity : num_cfg) : outcome order_conv :=
  let! p := expect (converter_new price) in
  let! q := expect (converter_new quantity) in
  Ret (OrderConv p q).

(** krx_converter.rs 19-34 *)
Definition krx_base_order_counter : outcome converter :=
  expect (converter_new (NumCfg 5 0 false 0 5 false)).
(** krx_converter.rs 38-69 *)
Definition krx_risk_free_derivative_converter : outcome order_conv :=
  order_converter (NumCfg 4 4 true 0 9 false) (NumCfg 9 0 false 0 9 false).
(** krx_converter.rs 70-100 *)
Definition krx_base_derivative_converter : outcome order_conv :=
  order_converter (NumCfg 5 3 true 0 9 false) (NumCfg 9 0 false 0 9 false).
(** krx_converter.rs 102-132 *)
Definition krx_stock_converter : outcome order_conv :=
  order_converter (NumCfg 9 0 false 2 11 false) (NumCfg 12 0 false 0 12 false).
(** krx_converter.rs 134-164 *)
Definition krx_stock_derivative_converter : outcome order_conv :=
  order_converter (NumCfg 8 0 true 0 9 false) (NumCfg 9 0 false 0 9 false).
(** krx_converter.rs 167-197 *)
Definition krx_general_commodity_derivative_converter : outcome order_conv :=
  order_converter (NumCfg 8 0 true 0 9 false) (NumCfg 9 0 false 0 9 false).
(** krx_converter.rs 199-229 (no parser uses it) *)
Definition krx_repo_converter : outcome order_conv :=
  order_converter (NumCfg 6 4 true 0 11 false) (NumCfg 15 0 false 0 15 false).
(** krx_converter.rs 230-260 (used as the placeholder of empty buffers) *)
Definition krx_base_bond_converter : outcome order_conv :=
  order_converter (NumCfg 7 3 false 1 11 false) (NumCfg 12 0 false 0 12 false).
(** krx_converter.rs 282-296 *)
Definition krx_base_cum_qnt_converter : outcome converter :=
  expect (converter_new (NumCfg 12 0 false 0 12 false)).
(** krx_converter.rs 314-328 (no parser uses it) *)
Definition krx_cum_trd_value_converter : outcome converter :=
  expect (converter_new (NumCfg 18 4 false 0 22 true)).
(** krx_converter.rs 331-346 (no parser uses it) *)
Definition krx_yield_converter : outcome converter :=
  expect (converter_new (NumCfg 5 7 true 0 13 false)).
(** krx_converter.rs 262-278: the offset of the timestamp converter. *)
Definition krx_offset : Z := 9 * hour_nanos.

(** krx_converter.rs 416-443.  "04F", "05F", "10F", "KR4169" *)
Definition get_krx_derivative_converter (payload : slice) (isin : list Z) : outcome order_conv :=
  let! code := subslice payload 2 5 in
  let tr := slice_list code in
  if bytes_eqb tr [48; 52; 70] || bytes_eqb tr [48; 53; 70] then krx_stock_derivative_converter
  else if bytes_eqb tr [49; 48; 70] then krx_general_commodity_derivative_converter
  else if bytes_eqb (firstn 6 isin) [75; 82; 52; 49; 54; 57] then krx_risk_free_derivative_converter
  else krx_base_derivative_converter.

(** types/id/isin_code.rs 18-35, utils/checkers.rs 1-17 *)
Definition isin_new (u : slice) : rresult (list Z) :=
  let b := slice_list u in
  if existsb (Z.eqb 32) b || existsb (Z.eqb 9) b then RErr
  else if negb (forallb (fun c => c <? 128) b) then RErr
  else if negb (s_len u =? 12)%nat then RErr
  else ROk b.

(** * Snapshots *)

(** types/enums.rs 47-53 *)
Inductive trade_type := TUndefined | TSell | TBuy.

(** data/quote.rs 22-39 *)
Record quote_snapshot := QuoteSnapshot {
  qs_id : list Z; qs_time : Z; qs_system : Z;
  qs_asks : list level_snapshot; qs_bids : list level_snapshot; qs_cut : nat;
  qs_lp_holdings : option Z; qs_counter : converter; qs_conv : order_conv }.

(** data/trade_quote.rs 26-50 *)
Record trade_quote_snapshot := TradeQuoteSnapshot {
  tq_id : list Z; tq_time : Z; tq_system : Z;
  tq_price : Z; tq_quantity : Z; tq_type : option trade_type;
  tq_asks : list level_snapshot; tq_bids : list level_snapshot; tq_cut : nat;
  tq_cum : option Z; tq_lp_holdings : option Z;
  tq_counter : converter; tq_conv : order_conv; tq_cum_conv : converter }.

(** data/trade.rs 20-33 *)
Record trade_data := TradeData {
  td_id : list Z; td_time : Z; td_system : Z;
  td_price : Z; td_quantity : Z; td_type : option trade_type;
  td_cum : option Z; td_conv : order_conv; td_cum_conv : converter }.

(** data/quote.rs 76-86, data/trade_quote.rs 107-117: [&v[..cut]] *)
Definition effective (v : list level_snapshot) (cut : nat) : outcome (list level_snapshot) :=
  if (cut <=? length v)%nat then Ret (firstn cut v) else Panic.

(** data/quote.rs 58-74, data/trade_quote.rs 82-105: [with_quote_level].  The
    default instrument id is modelled by the empty byte list. *)
Definition quote_with_level (level : nat) : outcome quote_snapshot :=
  let! cnt := krx_base_order_counter in
  let! conv := krx_base_bond_converter in
  Ret (QuoteSnapshot [] 0 0 (repeat (LevelSnapshot None 0 0 None) level) (repeat (LevelSnapshot None 0 0 None) level)
         level None cnt conv).
Definition trade_quote_with_level (level : nat) : outcome trade_quote_snapshot :=
  let! cnt := krx_base_order_counter in
  let! conv := krx_base_bond_converter in
  let! cc := krx_base_cum_qnt_converter in
  Ret (TradeQuoteSnapshot [] 0 0 0 0 None (repeat (LevelSnapshot None 0 0 None) level)
         (repeat (LevelSnapshot None 0 0 None) level) level None None cnt conv cc).

(** * Message formats: the fields of IFMSRPD00nn *)
Record iface := Iface {
  if_len : nat; if_isin : nat * nat; if_time : nat * nat;
  if_price : nat * nat; if_qty : nat * nat; if_cumq : nat * nat; if_type : nat * nat;
  if_cut : nat; if_max : nat (* bound checked by with_quote_level_cut *); if_start : nat;
  if_parse_cum : bool }.

(** Slices a format does not have. *)
Definition absent : nat * nat := (0%nat, 0%nat).

(** derivative_quote.rs 93-105 *)
Definition ifmsrpd0034 : iface :=
  Iface 324 (17%nat, 29%nat) (35%nat, 47%nat) absent absent absent absent 5 5 47 false.
(** derivative_quote.rs 359-371 *)
Definition ifmsrpd0035 : iface :=
  Iface 554 (17%nat, 29%nat) (35%nat, 47%nat) absent absent absent absent 10 10 47 false.
(** derivative_trade.rs 131-153 *)
Definition ifmsrpd0037 : iface :=
  Iface 431 (17%nat, 29%nat) (35%nat, 47%nat) (47%nat, 56%nat) (56%nat, 65%nat) (119%nat, 131%nat) (153%nat, 154%nat) 5 5 172 false.
(** derivative_trade.rs 455-483 *)
Definition ifmsrpd0038 : iface :=
  Iface 661 (17%nat, 29%nat) (35%nat, 47%nat) (47%nat, 56%nat) (56%nat, 65%nat) (119%nat, 131%nat) (153%nat, 154%nat) 10 10 172 false.
(** derivative_trade.rs 724-739; no quotes, get_quote_level_cut() = 0 *)
Definition ifmsrpd0036 : iface :=
  Iface 173 (17%nat, 29%nat) (35%nat, 47%nat) (47%nat, 56%nat) (56%nat, 65%nat) (119%nat, 131%nat) (153%nat, 154%nat) 0 0 0 false.
(** stock_quote.rs 124-137 *)
Definition ifmsrpd0002 : iface :=
  Iface 555 (17%nat, 29%nat) (35%nat, 47%nat) absent absent absent absent 10 10 47 false.
(** stock_quote.rs 345-357 *)
Definition ifmsrpd0003 : iface :=
  Iface 795 (17%nat, 29%nat) (35%nat, 47%nat) absent absent absent absent 10 10 47 false.

(** with_quote_level_cut: derivative_quote.rs 126-133, 375-382;
    derivative_trade.rs 157-164, 503-510; stock_quote.rs 140-147, 378-385 *)
Definition with_quote_level_cut (f : iface) (cut : nat) : rresult iface :=
  if (if_max f <? cut)%nat then RErr
  else ROk (Iface (if_len f) (if_isin f) (if_time f) (if_price f) (if_qty f) (if_cumq f) (if_type f)
                  cut (if_max f) (if_start f) (if_parse_cum f)).
(** with_cum_trd_qnt: derivative_trade.rs 167-170, 512-515, 759-762 *)
Definition with_cum_trd_qnt (f : iface) (b : bool) : iface :=
  Iface (if_len f) (if_isin f) (if_time f) (if_price f) (if_qty f) (if_cumq f) (if_type f)
        (if_cut f) (if_max f) (if_start f) b.

(** * Framing checks *)

(** The error text embeds [std::str::from_utf8(&payload[..size - 1]).unwrap()]. *)
Definition framing_error (size : nat) (payload : slice) : outcome (rresult unit) :=
  let! head := subslice payload 0 (size - 1) in
  if utf8_valid (slice_list head) then Ret RErr else Panic.

(** data/checker.rs 18-44 *)
Definition is_valid_krx_payload (f : iface) (payload : slice) : outcome (rresult unit) :=
  if negb (s_len payload =? if_len f)%nat then framing_error (if_len f) payload
  else
    let! e := index payload (if_len f - 1) in
    if negb (e =? 255) then framing_error (if_len f) payload else Ret (ROk tt).

(** data/checker.rs 47-60 and 63-77 *)
Definition is_valid_buffer (f : iface) (payload : slice) (asks bids : list level_snapshot)
  : outcome (rresult unit) :=
  if (length asks <? if_cut f)%nat || (length bids <? if_cut f)%nat
  then framing_error (if_len f) payload else Ret (ROk tt).

(** * Quote levels *)

Definition cut_slice (u : slice) (r : nat * nat) : outcome slice := subslice u (fst r) (snd r).

(** One [if $max_level >= i + 1] block of [parse_unroll!] (unroll_macro.rs
    300-539) and of [parse_unroll_with_buffer!] (2-298): all ten blocks of both
    macros are the same up to [i].  Result: ask level, bid level. *)
Definition parse_level (m : build) (conv : order_conv) (cnt : converter)
    (start offset pr qn orl : nat) (payload : slice) (i : nat) : outcome (level_snapshot * level_snapshot) :=
  let st := (start + i * offset)%nat in
  let! c := subslice payload st (st + offset) in
  let! a := subslice c 0 pr in
  let! ask_price := to_i64 m (oc_price conv) a in
  let i1 := (pr + pr)%nat in
  let! a := subslice c pr i1 in
  let! bid_price := to_i64 m (oc_price conv) a in
  let! a := subslice c i1 (i1 + qn) in
  let! ask_qty := to_u64_unchecked m (oc_quantity conv) a in
  let i2 := (i1 + qn)%nat in
  let! a := subslice c i2 (i2 + qn) in
  let! bid_qty := to_u64_unchecked m (oc_quantity conv) a in
  let i3 := (i2 + qn)%nat in
  let! a := subslice c i3 (i3 + orl) in
  let! ask_cnt := to_u32_unchecked m cnt a in
  let i4 := (i3 + orl)%nat in
  let! a := subslice c i4 (i4 + orl) in
  let! bid_cnt := to_u32_unchecked m cnt a in
  Ret (LevelSnapshot (Some ask_cnt) ask_price ask_qty None,
       LevelSnapshot (Some bid_cnt) bid_price bid_qty None).

(** One block of the four stock macros: 541-781 and 783-1027 (no LP), 1029-1324
    and 1326-1618 (LP quantities after the quantities). *)
Definition parse_stock_level (m : build) (lp : bool) (conv : order_conv)
    (start offset pr qn : nat) (payload : slice) (i : nat) : outcome (level_snapshot * level_snapshot) :=
  let st := (start + i * offset)%nat in
  let! c := subslice payload st (st + offset) in
  let! a := subslice c 0 pr in
  let! ask_price := to_nonnegative_i64_unchecked m (oc_price conv) a in
  let i1 := (pr + pr)%nat in
  let! a := subslice c pr i1 in
  let! bid_price := to_nonnegative_i64_unchecked m (oc_price conv) a in
  let! a := subslice c i1 (i1 + qn) in
  let! ask_qty := to_u64_unchecked m (oc_quantity conv) a in
  let i2 := (i1 + qn)%nat in
  let! a := subslice c i2 (i2 + qn) in
  let! bid_qty := to_u64_unchecked m (oc_quantity conv) a in
  if lp then
    let i3 := (i2 + qn)%nat in
    let! a := subslice c i3 (i3 + qn) in
    let! ask_lp := to_u64_unchecked m (oc_quantity conv) a in
    let i4 := (i3 + qn)%nat in
    let! a := subslice c i4 (i4 + qn) in
    let! bid_lp := to_u64_unchecked m (oc_quantity conv) a in
    Ret (LevelSnapshot None ask_price ask_qty (Some ask_lp),
         LevelSnapshot None bid_price bid_qty (Some bid_lp))
  else
    Ret (LevelSnapshot None ask_price ask_qty None, LevelSnapshot None bid_price bid_qty None).

(** The blocks in order. *)
Fixpoint unroll {A} (f : nat -> outcome A) (is : list nat) : outcome (list A) :=
  match is with
  | [] => Ret []
  | i :: t => let! x := f i in let! r := unroll f t in Ret (x :: r)
  end.

(** The macros have ten blocks: levels [0 .. min(cut, 10) - 1]. *)
Definition levels (f : nat -> outcome (level_snapshot * level_snapshot)) (cut : nat)
  : outcome (list (level_snapshot * level_snapshot)) := unroll f (seq 0 (Nat.min cut 10)).

(** types/base.rs 134-140 (derive Default) *)
Definition default_level : level_snapshot := LevelSnapshot None 0 0 None.

(** [v[0..k]] overwritten by the parsed levels; an index outside the vector panics. *)
Definition overwrite (v new : list level_snapshot) : outcome (list level_snapshot) :=
  if (length new <=? length v)%nat then Ret (new ++ skipn (length new) v) else Panic.

(** [vec![LevelSnapshot::default(); cut]] then the macro. *)
Definition fresh_levels (cut : nat) (new : list level_snapshot) : outcome (list level_snapshot) :=
  overwrite (repeat default_level cut) new.

(** * Derivative quotes: IFMSRPD0034, IFMSRPD0035 *)

(** derivative_quote.rs 135-192 and 384-442 (the same body) *)
Definition to_quote_snapshot (m : build) (f : iface) (now : Z) (payload : slice) (dg : date_gen)
  : outcome (rresult (quote_snapshot * date_gen)) :=
  let? _ := is_valid_krx_payload f payload in
  let! s := cut_slice payload (if_isin f) in
  let? isin := Ret (isin_new s) in
  let! head := subslice payload 0 5 in
  let! conv := get_krx_derivative_converter head isin in
  let! cnt := krx_base_order_counter in
  let pr := total_length (cv_cfg (oc_price conv)) in
  let qn := total_length (cv_cfg (oc_quantity conv)) in
  let orl := total_length (cv_cfg cnt) in
  let! s := cut_slice payload (if_time f) in
  let! (t, dg') := parse_hhmmssuuuuuu m krx_offset s dg in
  let offset := (pr * 2 + qn * 2 + orl * 2)%nat in
  let! ls := levels (parse_level m conv cnt (if_start f) offset pr qn orl payload) (if_cut f) in
  let! asks := fresh_levels (if_cut f) (map fst ls) in
  let! bids := fresh_levels (if_cut f) (map snd ls) in
  Ret (ROk (QuoteSnapshot isin t now asks bids (if_cut f) None cnt conv, dg')).

(** derivative_quote.rs 194-245 and 444-492 (the same body) *)
Definition to_quote_snapshot_buffer (m : build) (f : iface) (now : Z) (payload : slice)
    (b : quote_snapshot) (dg : date_gen) : outcome (rresult (quote_snapshot * date_gen)) :=
  let? _ := is_valid_krx_payload f payload in
  let? _ := is_valid_buffer f payload (qs_asks b) (qs_bids b) in
  let! s := cut_slice payload (if_isin f) in
  let? isin := Ret (isin_new s) in
  let! head := subslice payload 0 5 in
  let! conv := get_krx_derivative_converter head isin in
  let! cnt := krx_base_order_counter in
  let pr := total_length (cv_cfg (oc_price conv)) in
  let qn := total_length (cv_cfg (oc_quantity conv)) in
  let orl := total_length (cv_cfg cnt) in
  let! s := cut_slice payload (if_time f) in
  let! (t, dg') := parse_hhmmssuuuuuu m krx_offset s dg in
  let offset := (pr * 2 + qn * 2 + orl * 2)%nat in
  let! ls := levels (parse_level m conv cnt (if_start f) offset pr qn orl payload) (if_cut f) in
  let! asks := overwrite (qs_asks b) (map fst ls) in
  let! bids := overwrite (qs_bids b) (map snd ls) in
  Ret (ROk (QuoteSnapshot isin t now asks bids (qs_cut b) (qs_lp_holdings b) cnt conv, dg')).

(** * Stock quotes: IFMSRPD0002 (lp = false), IFMSRPD0003 (lp = true) *)

(** stock_quote.rs 149-205 and 387-443; [offset] is [pr*2 + qn*2] resp. [pr*2 + qn*4] *)
Definition to_stock_quote (m : build) (lp : bool) (f : iface) (now : Z) (payload : slice) (dg : date_gen)
  : outcome (rresult (quote_snapshot * date_gen)) :=
  let? _ := is_valid_krx_payload f payload in
  let! s := cut_slice payload (if_isin f) in
  let? isin := Ret (isin_new s) in
  let! conv := krx_stock_converter in
  let pr := total_length (cv_cfg (oc_price conv)) in
  let qn := total_length (cv_cfg (oc_quantity conv)) in
  let! s := cut_slice payload (if_time f) in
  let! (t, dg') := parse_hhmmssuuuuuu m krx_offset s dg in
  let offset := (pr * 2 + (if lp then qn * 4 else qn * 2))%nat in
  let! ls := levels (parse_stock_level m lp conv (if_start f) offset pr qn payload) (if_cut f) in
  let! asks := fresh_levels (if_cut f) (map fst ls) in
  let! bids := fresh_levels (if_cut f) (map snd ls) in
  let! cnt := krx_base_order_counter in
  Ret (ROk (QuoteSnapshot isin t now asks bids (if_cut f) None cnt conv, dg')).

(** stock_quote.rs 208-251 and 445-486 *)
Definition to_stock_quote_buffer (m : build) (lp : bool) (f : iface) (now : Z) (payload : slice)
    (b : quote_snapshot) (dg : date_gen) : outcome (rresult (quote_snapshot * date_gen)) :=
  let? _ := is_valid_krx_payload f payload in
  let? _ := is_valid_buffer f payload (qs_asks b) (qs_bids b) in
  let! s := cut_slice payload (if_isin f) in
  let? isin := Ret (isin_new s) in
  let! conv := krx_stock_converter in
  let pr := total_length (cv_cfg (oc_price conv)) in
  let qn := total_length (cv_cfg (oc_quantity conv)) in
  let! s := cut_slice payload (if_time f) in
  let! (t, dg') := parse_hhmmssuuuuuu m krx_offset s dg in
  let offset := (pr * 2 + (if lp then qn * 4 else qn * 2))%nat in
  let! ls := levels (parse_stock_level m lp conv (if_start f) offset pr qn payload) (if_cut f) in
  let! asks := overwrite (qs_asks b) (map fst ls) in
  let! bids := overwrite (qs_bids b) (map snd ls) in
  Ret (ROk (QuoteSnapshot isin t now asks bids (qs_cut b) (qs_lp_holdings b) (qs_counter b) conv, dg')).

(** * Derivative trades with quotes: IFMSRPD0037, IFMSRPD0038 *)

(** derivative_trade.rs 209-213 (and four more copies): b"0", b"1", _ *)
Definition parse_trade_type (u : slice) : option trade_type :=
  if bytes_eqb (slice_list u) [48] then Some TUndefined
  else if bytes_eqb (slice_list u) [49] then Some TSell
  else Some TBuy.

(** derivative_trade.rs 216-225 (and five more copies) *)
Definition parse_cum (m : build) (f : iface) (payload : slice) : outcome (option Z) :=
  if if_parse_cum f then
    let! cc := krx_base_cum_qnt_converter in
    let! s := cut_slice payload (if_cumq f) in
    let! v := to_u64_unchecked m cc s in Ret (Some v)
  else Ret None.

(** derivative_trade.rs 172-265 and 517-602; the order in which the independent
    fields are read differs between the two and does not matter. *)
Definition to_trade_quote (m : build) (f : iface) (now : Z) (payload : slice) (dg : date_gen)
  : outcome (rresult (trade_quote_snapshot * date_gen)) :=
  let? _ := is_valid_krx_payload f payload in
  let! s := cut_slice payload (if_isin f) in
  let? isin := Ret (isin_new s) in
  let! head := subslice payload 0 5 in
  let! conv := get_krx_derivative_converter head isin in
  let! cnt := krx_base_order_counter in
  let pr := total_length (cv_cfg (oc_price conv)) in
  let qn := total_length (cv_cfg (oc_quantity conv)) in
  let orl := total_length (cv_cfg cnt) in
  let! s := cut_slice payload (if_time f) in
  let! (t, dg') := parse_hhmmssuuuuuu m krx_offset s dg in
  let! s := cut_slice payload (if_price f) in
  let! price := to_i64 m (oc_price conv) s in
  let! s := cut_slice payload (if_qty f) in
  let! qty := to_u64_unchecked m (oc_quantity conv) s in
  let! s := cut_slice payload (if_type f) in
  let ty := parse_trade_type s in
  let! cum := parse_cum m f payload in
  let offset := (pr * 2 + qn * 2 + orl * 2)%nat in
  let! ls := levels (parse_level m conv cnt (if_start f) offset pr qn orl payload) (if_cut f) in
  let! asks := fresh_levels (if_cut f) (map fst ls) in
  let! bids := fresh_levels (if_cut f) (map snd ls) in
  let! cc := krx_base_cum_qnt_converter in
  Ret (ROk (TradeQuoteSnapshot isin t now price qty ty asks bids (if_cut f) cum None cnt conv cc, dg')).

(** derivative_trade.rs 267-342 (IFMSRPD0037: [full] = true) and 604-676
    (IFMSRPD0038: [full] = false, does not write the converter fields). *)
Definition to_trade_quote_buffer (m : build) (full : bool) (f : iface) (now : Z) (payload : slice)
    (b : trade_quote_snapshot) (dg : date_gen) : outcome (rresult (trade_quote_snapshot * date_gen)) :=
  let? _ := is_valid_krx_payload f payload in
  let? _ := is_valid_buffer f payload (tq_asks b) (tq_bids b) in
  let! s := cut_slice payload (if_isin f) in
  let? isin := Ret (isin_new s) in
  let! head := subslice payload 0 5 in
  let! conv := get_krx_derivative_converter head isin in
  let! cnt := krx_base_order_counter in
  let pr := total_length (cv_cfg (oc_price conv)) in
  let qn := total_length (cv_cfg (oc_quantity conv)) in
  let orl := total_length (cv_cfg cnt) in
  let! cum := parse_cum m f payload in
  let! cc := (if full && if_parse_cum f then krx_base_cum_qnt_converter else Ret (tq_cum_conv b)) in
  let! s := cut_slice payload (if_time f) in
  let! (t, dg') := parse_hhmmssuuuuuu m krx_offset s dg in
  let! s := cut_slice payload (if_price f) in
  let! price := to_i64 m (oc_price conv) s in
  let! s := cut_slice payload (if_qty f) in
  let! qty := to_u64_unchecked m (oc_quantity conv) s in
  let! s := cut_slice payload (if_type f) in
  let ty := parse_trade_type s in
  let offset := (pr * 2 + qn * 2 + orl * 2)%nat in
  let! ls := levels (parse_level m conv cnt (if_start f) offset pr qn orl payload) (if_cut f) in
  let! asks := overwrite (tq_asks b) (map fst ls) in
  let! bids := overwrite (tq_bids b) (map snd ls) in
  Ret (ROk (TradeQuoteSnapshot isin t now price qty ty asks bids (tq_cut b) cum (tq_lp_holdings b)
              (if full then cnt else tq_counter b) (if full then conv else tq_conv b) cc, dg')).

(** * Derivative trades: IFMSRPD0036 *)

(** derivative_trade.rs 764-818 *)
Definition to_trade_data (m : build) (f : iface) (now : Z) (payload : slice) (dg : date_gen)
  : outcome (rresult (trade_data * date_gen)) :=
  let? _ := is_valid_krx_payload f payload in
  let! s := cut_slice payload (if_isin f) in
  let? isin := Ret (isin_new s) in
  let! head := subslice payload 0 5 in
  let! conv := get_krx_derivative_converter head isin in
  let! cum := parse_cum m f payload in
  let! s := cut_slice payload (if_time f) in
  let! (t, dg') := parse_hhmmssuuuuuu m krx_offset s dg in
  let! s := cut_slice payload (if_price f) in
  let! price := to_nonnegative_i64_unchecked m (oc_price conv) s in
  let! s := cut_slice payload (if_qty f) in
  let! qty := to_u64_unchecked m (oc_quantity conv) s in
  let! s := cut_slice payload (if_type f) in
  let! cc := krx_base_cum_qnt_converter in
  Ret (ROk (TradeData isin t now price qty (parse_trade_type s) cum conv cc, dg')).

(** derivative_trade.rs 820-869 *)
Definition to_trade_data_buffer (m : build) (f : iface) (now : Z) (payload : slice)
    (b : trade_data) (dg : date_gen) : outcome (rresult (trade_data * date_gen)) :=
  let? _ := is_valid_krx_payload f payload in
  let! s := cut_slice payload (if_isin f) in
  let? isin := Ret (isin_new s) in
  let! head := subslice payload 0 5 in
  let! conv := get_krx_derivative_converter head isin in
  let! cum := parse_cum m f payload in
  let! s := cut_slice payload (if_time f) in
  let! (t, dg') := parse_hhmmssuuuuuu m krx_offset s dg in
  let! s := cut_slice payload (if_price f) in
  let! price := to_i64 m (oc_price conv) s in
  let! s := cut_slice payload (if_qty f) in
  let! qty := to_u64_unchecked m (oc_quantity conv) s in
  let! s := cut_slice payload (if_type f) in
  Ret (ROk (TradeData isin t now price qty (parse_trade_type s) cum conv (td_cum_conv b), dg')).
