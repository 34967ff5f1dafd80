(** KrxSpec.v -- what KRX messages look like (the layout tables in the doc
    comments of derivative_quote.rs 29-80, 246-330, derivative_trade.rs 32-98,
    345-440, 679-710, stock_quote.rs 36-97, 254-333), written as an encoder:
    from the values of a message to its bytes.  Nothing here parses. *)
From Coq Require Import ZArith List Bool.
From Verif Require Import NumSpec OBTypes.
Import ListNotations.
Open Scope Z_scope.

Definition ascii (b : Z) : Prop := 0 <= b < 128.
Definition byte (b : Z) : Prop := 0 <= b < 256.
(** A text column of [n] bytes. *)
Definition text (n : nat) (l : list Z) : Prop := length l = n /\ Forall byte l.
(** An ISIN: 12 ASCII characters, no blank or tab. *)
Definition isin_ok (l : list Z) : Prop :=
  length l = 12%nat /\ Forall (fun b => ascii b /\ b <> 32 /\ b <> 9) l.

(** Columns every message starts with. *)
Record header := Header {
  hd_category : list Z;     (* 2 *)
  hd_information : list Z;  (* 3 *)
  hd_sequence : list Z;     (* 8 *)
  hd_board : list Z;        (* 2 *)
  hd_session : list Z;      (* 2 *)
  hd_isin : list Z;         (* 12 *)
  hd_issue : list Z;        (* 6 *)
  hd_hour : Z; hd_minute : Z; hd_second : Z; hd_micro : Z }.
Definition header_ok (h : header) : Prop :=
  text 2 (hd_category h) /\ text 3 (hd_information h) /\ text 8 (hd_sequence h) /\
  text 2 (hd_board h) /\ text 2 (hd_session h) /\ isin_ok (hd_isin h) /\ text 6 (hd_issue h) /\
  clock_ok (hd_hour h) (hd_minute h) (hd_second h) (hd_micro h).
Definition header_text (h : header) : list Z :=
  hd_category h ++ hd_information h ++ hd_sequence h ++ hd_board h ++ hd_session h ++ hd_isin h ++
  hd_issue h ++ clock_text (hd_hour h) (hd_minute h) (hd_second h) (hd_micro h).

(** Derivative prices: nine columns, a sign column and eight for the number.
    Stock (04F, 05F) and commodity (10F) products are quoted without decimals,
    risk-free-rate products (ISIN KR4169...) with three, all others with two. *)
Inductive price_format := NoDecimals | ThreeDecimals | TwoDecimals.
Definition integer_columns (p : price_format) : nat :=
  match p with NoDecimals => 8 | ThreeDecimals => 4 | TwoDecimals => 5 end.
Definition point_columns (p : price_format) : nat :=
  match p with NoDecimals => 0 | ThreeDecimals => 4 | TwoDecimals => 3 end.
Definition format_of (h : header) (p : price_format) : Prop :=
  let stock_or_commodity :=
    hd_information h = [48; 52; 70] \/ hd_information h = [48; 53; 70] \/ hd_information h = [49; 48; 70] in
  let risk_free := firstn 6 (hd_isin h) = [75; 82; 52; 49; 54; 57] in
  match p with
  | NoDecimals => stock_or_commodity
  | ThreeDecimals => ~ stock_or_commodity /\ risk_free
  | TwoDecimals => ~ stock_or_commodity /\ ~ risk_free
  end.
(** Price [v] (in units of its last decimal). *)
Definition price_text (p : price_format) (v : Z) : list Z :=
  field_text true [] (integer_columns p) (point_columns p) v.
Definition price_ok (p : price_format) (v : Z) : Prop :=
  Z.abs v < capacity (integer_columns p) (point_columns p).

(** One level of a derivative quote. *)
Record quote_row := QuoteRow {
  ask_price : Z; bid_price : Z; ask_volume : Z; bid_volume : Z; ask_orders : Z; bid_orders : Z }.
Definition row_text (p : price_format) (r : quote_row) : list Z :=
  price_text p (ask_price r) ++ price_text p (bid_price r) ++
  digit_chars 9 (ask_volume r) ++ digit_chars 9 (bid_volume r) ++
  digit_chars 5 (ask_orders r) ++ digit_chars 5 (bid_orders r).
Definition row_ok (p : price_format) (r : quote_row) : Prop :=
  price_ok p (ask_price r) /\ price_ok p (bid_price r) /\
  0 <= ask_volume r < 10 ^ 9 /\ 0 <= bid_volume r < 10 ^ 9 /\
  0 <= ask_orders r < 10 ^ 5 /\ 0 <= bid_orders r < 10 ^ 5.
Definition ask_row (r : quote_row) : level_snapshot :=
  LevelSnapshot (Some (ask_orders r)) (ask_price r) (ask_volume r) None.
Definition bid_row (r : quote_row) : level_snapshot :=
  LevelSnapshot (Some (bid_orders r)) (bid_price r) (bid_volume r) None.

(** Derivative quotes: header, levels, 46 columns of totals, end keyword. *)
Definition quote_text (h : header) (p : price_format) (rows : list quote_row) (totals : list Z) : list Z :=
  header_text h ++ concat (map (row_text p) rows) ++ totals ++ [255].

(** The trade columns of a derivative trade message. *)
Record trade_part := TradePart {
  tp_price : Z; tp_volume : Z;
  tp_other : list Z;            (* six prices: 54 columns *)
  tp_cumulative : Z;            (* 12 columns *)
  tp_value : list Z;            (* 22 *)
  tp_side : Z;                  (* 1: '0', '1', '2' *)
  tp_limits : list Z }.         (* 18 *)
Definition trade_text (p : price_format) (t : trade_part) : list Z :=
  price_text p (tp_price t) ++ digit_chars 9 (tp_volume t) ++ tp_other t ++
  digit_chars 12 (tp_cumulative t) ++ tp_value t ++ [tp_side t] ++ tp_limits t.
Definition trade_ok (p : price_format) (t : trade_part) : Prop :=
  price_ok p (tp_price t) /\ 0 <= tp_volume t < 10 ^ 9 /\ text 54 (tp_other t) /\
  0 <= tp_cumulative t < 10 ^ 12 /\ text 22 (tp_value t) /\ byte (tp_side t) /\ text 18 (tp_limits t).

(** Derivative trades, alone and with quotes (28 columns of totals). *)
Definition trade_only_text (h : header) (p : price_format) (t : trade_part) : list Z :=
  header_text h ++ trade_text p t ++ [255].
Definition trade_quote_text (h : header) (p : price_format) (t : trade_part) (rows : list quote_row)
    (totals : list Z) : list Z :=
  header_text h ++ trade_text p t ++ concat (map (row_text p) rows) ++ totals ++ [255].

(** Stock quotes: prices of eleven digits, quantities of twelve. *)
Record stock_row := StockRow {
  s_ask_price : Z; s_bid_price : Z; s_ask_volume : Z; s_bid_volume : Z; s_ask_lp : Z; s_bid_lp : Z }.
Definition stock_row_text (lp : bool) (r : stock_row) : list Z :=
  digit_chars 11 (s_ask_price r) ++ digit_chars 11 (s_bid_price r) ++
  digit_chars 12 (s_ask_volume r) ++ digit_chars 12 (s_bid_volume r) ++
  (if lp then digit_chars 12 (s_ask_lp r) ++ digit_chars 12 (s_bid_lp r) else []).
Definition stock_row_ok (r : stock_row) : Prop :=
  0 <= s_ask_price r < 10 ^ 11 /\ 0 <= s_bid_price r < 10 ^ 11 /\
  0 <= s_ask_volume r < 10 ^ 12 /\ 0 <= s_bid_volume r < 10 ^ 12 /\
  0 <= s_ask_lp r < 10 ^ 12 /\ 0 <= s_bid_lp r < 10 ^ 12.
(** 47 columns of totals and estimates. *)
Definition stock_quote_text (lp : bool) (h : header) (rows : list stock_row) (totals : list Z) : list Z :=
  header_text h ++ concat (map (stock_row_text lp) rows) ++ totals ++ [255].
Definition stock_ask_row (lp : bool) (price : Z -> Z) (r : stock_row) : level_snapshot :=
  LevelSnapshot None (price (s_ask_price r)) (s_ask_volume r) (if lp then Some (s_ask_lp r) else None).
Definition stock_bid_row (lp : bool) (price : Z -> Z) (r : stock_row) : level_snapshot :=
  LevelSnapshot None (price (s_bid_price r)) (s_bid_volume r) (if lp then Some (s_bid_lp r) else None).

(** The final ask/bid type code. *)
Inductive side_code := CodeNone | CodeSell | CodeBuy.
Definition side_code_of (b : Z) : side_code :=
  if b =? 48 then CodeNone else if b =? 49 then CodeSell else CodeBuy.

(** Timestamps: the reading of a clock [h:mi:s.us] given the running date
    [date] and the previous stamp [prev] is [date + clock + offset + k] days
    with the least [k >= 0] that is later than [prev] minus 15 hours. *)
Definition one_day : Z := 24 * 3600 * 1000000000.
Definition stamped (offset date prev : Z) (h : header) (stamp date' : Z) : Prop :=
  exists k, 0 <= k /\
    let local := date + clock_nanos (hd_hour h) (hd_minute h) (hd_second h) (hd_micro h) + offset in
    stamp = local + k * one_day /\ date' = date + k * one_day /\
    prev < stamp + 15 * 3600 * 1000000000 /\
    (k = 0 \/ stamp - one_day + 15 * 3600 * 1000000000 <= prev).

(** UTF-8 (RFC 3629): scalar values and their encoding. *)
Definition scalar (c : Z) : Prop := 0 <= c < 55296 \/ 57344 <= c <= 1114111.
Definition encode (c : Z) : list Z :=
  if c <? 128 then [c]
  else if c <? 2048 then [192 + c / 64; 128 + c mod 64]
  else if c <? 65536 then [224 + c / 4096; 128 + c / 64 mod 64; 128 + c mod 64]
  else [240 + c / 262144; 128 + c / 4096 mod 64; 128 + c / 64 mod 64; 128 + c mod 64].
Definition utf8_text (l : list Z) : Prop := exists cs, Forall scalar cs /\ l = concat (map encode cs).
