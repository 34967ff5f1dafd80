(** OBSpec.v -- a reference exchange, written without looking at levels, caches
    or running totals.

    The whole state of the market is one list of resting orders in the order in
    which they arrived.  Price-time priority is a stable sort of that list. *)
From Coq Require Import ZArith List Bool.
From Verif Require Import Base OBTypes.
Import ListNotations.
Open Scope Z_scope.

Record rest := Rest { r_id : Z; r_side : side; r_price : Z; r_qty : Z }.

(** Resting orders, oldest first. *)
Definition market : Type := list rest.

Definition on_side (s : side) (mk : market) : market :=
  filter (fun o => side_eqb (r_side o) s) mk.

(** Orders of side [s] resting at price [p], oldest first. *)
Definition at_price (s : side) (p : Z) (mk : market) : market :=
  filter (fun o => side_eqb (r_side o) s && (r_price o =? p)) mk.

Definition total_qty (mk : market) : Z := fold_right (fun o a => r_qty o + a) 0 mk.

(** Quantity resting on side [s] at price [p]; on side [s] altogether. *)
Definition level_qty (s : side) (p : Z) (mk : market) : Z := total_qty (at_price s p mk).
Definition side_qty (s : side) (mk : market) : Z := total_qty (on_side s mk).

Definition lookup (id : Z) (mk : market) : option rest :=
  find (fun o => r_id o =? id) mk.

(** [better s p q]: a resting order of side [s] at [p] trades before one at [q]. *)
Definition better (s : side) (p q : Z) : bool :=
  match s with Ask => p <? q | Bid => q <? p end.

(** Price-time priority: stable insertion sort, best price first. *)
Fixpoint prio_insert (s : side) (o : rest) (l : market) : market :=
  match l with
  | [] => [o]
  | x :: t => if better s (r_price x) (r_price o) then x :: prio_insert s o t else o :: l
  end.
Definition by_priority (s : side) (mk : market) : market :=
  fold_right (prio_insert s) [] mk.

(** Give each order, in the given order, as much of [q] as it can take. *)
Fixpoint fill (q : Z) (l : market) : list (rest * Z) :=
  match l with
  | [] => []
  | o :: t => let f := Z.min (r_qty o) q in (o, f) :: fill (q - f) t
  end.

Definition fills_total (ex : list (rest * Z)) : Z := fold_right (fun x a => snd x + a) 0 ex.

(** The executions reported to the user: one line per price, in execution order. *)
Fixpoint report (ex : list (rest * Z)) : trade_history :=
  match ex with
  | [] => []
  | (o, f) :: t =>
      if f <=? 0 then report t
      else match report t with
           | (p, q) :: h => if p =? r_price o then (p, q + f) :: h
                            else (r_price o, f) :: (p, q) :: h
           | [] => [(r_price o, f)]
           end
  end.

Definition filled_of (id : Z) (ex : list (rest * Z)) : Z :=
  fold_right (fun x a => (if r_id (fst x) =? id then snd x else 0) + a) 0 ex.

(** Take the executed quantities out of the market; exhausted orders leave,
    every other order keeps its place. *)
Definition settle (ex : list (rest * Z)) (mk : market) : market :=
  filter (fun o => 0 <? r_qty o)
    (map (fun o => Rest (r_id o) (r_side o) (r_price o) (r_qty o - filled_of (r_id o) ex)) mk).

(** May an order resting on side [s] at [p] trade against a limit [lim]?
    [None] = market order. *)
Definition acceptable (s : side) (lim : option Z) (p : Z) : bool :=
  match lim, s with
  | None, _ => true
  | Some l, Ask => p <=? l
  | Some l, Bid => l <=? p
  end.

(** Match [q] against side [s]: new market, report, unfilled quantity. *)
Definition execute (s : side) (lim : option Z) (q : Z) (mk : market)
  : market * trade_history * Z :=
  let cands := filter (fun o => acceptable s lim (r_price o)) (by_priority s (on_side s mk)) in
  let ex := fill q cands in
  (settle ex mk, report ex, q - fills_total ex).

Definition other (s : side) : side := match s with Ask => Bid | Bid => Ask end.

Definition sp_add (o : limit_order) (mk : market) : market :=
  mk ++ [Rest (lo_id o) (lo_side o) (lo_price o) (lo_quantity o)].

(** Limit order: trades with every acceptable opposite order; what is leftover rests. *)
Definition sp_limit (o : limit_order) (mk : market) : market * option (trade_history * Z) :=
  let s := other (lo_side o) in
  if existsb (fun x => acceptable s (Some (lo_price o)) (r_price x)) (on_side s mk) then
    let '(mk', h, leftover) := execute s (Some (lo_price o)) (lo_quantity o) mk in
    (if 0 <? leftover
     then sp_add (LimitOrder (lo_price o) leftover (lo_side o) (lo_id o)) mk'
     else mk', Some (h, leftover))
  else (sp_add o mk, None).

(** Market order: trades with the whole opposite side; what is leftover is returned. *)
Definition sp_market (o : market_order) (mk : market) : market * option (trade_history * Z) :=
  let s := other (mo_side o) in
  match on_side s mk with
  | [] => (mk, None)
  | _ => let '(mk', h, leftover) := execute s None (mo_quantity o) mk in (mk', Some (h, leftover))
  end.

Definition sp_cancel (id : Z) (mk : market) : market * bool :=
  match lookup id mk with
  | Some _ => (filter (fun o => negb (r_id o =? id)) mk, true)
  | None => (mk, false)
  end.

Definition sp_set_qty (id q : Z) (mk : market) : market :=
  map (fun o => if r_id o =? id then Rest (r_id o) (r_side o) (r_price o) q else o) mk.

Definition sp_change_quantity (id q : Z) (mk : market) : market * bool :=
  match lookup id mk with
  | Some _ => (sp_set_qty id q mk, true)
  | None => (mk, false)
  end.

(** Same price: keeps its place.  New price: leaves and comes back as a new order. *)
Definition sp_modify (o : modify_order) (mk : market) : market * option (trade_history * Z) :=
  match lookup (mod_id o) mk with
  | None => (mk, None)
  | Some x =>
      if r_price x =? mod_price o then (sp_set_qty (mod_id o) (mod_quantity o) mk, None)
      else sp_limit (LimitOrder (mod_price o) (mod_quantity o) (r_side x) (mod_id o))
                    (fst (sp_cancel (mod_id o) mk))
  end.

(** Remove up to [q] at one price, youngest orders first. *)
Definition sp_remove_any (s : side) (p q : Z) (mk : market) : market * Z :=
  let ex := fill q (rev (at_price s p mk)) in
  (settle ex mk, q - fills_total ex).

Definition rows_prices (rows : list level_snapshot) : list Z := map sn_price rows.
Definition price_in (p : Z) (ps : list Z) : bool := existsb (fun x => x =? p) ps.

(** Keep side [s] only at the listed prices. *)
Definition sp_keep_prices (s : side) (ps : list Z) (mk : market) : market :=
  filter (fun o => negb (side_eqb (r_side o) s) || price_in (r_price o) ps) mk.

(** One row of a level-2 snapshot of side [s] (at most one order per price). *)
Definition sp_l2_row (s : side) (row : level_snapshot) (st : market * Z) : market * Z :=
  let '(mk, c) := st in
  match at_price s (sn_price row) mk with
  | [] => (mk ++ [Rest c s (sn_price row) (sn_quantity row)], c + 1)
  | _ => (map (fun o => if side_eqb (r_side o) s && (r_price o =? sn_price row)
                        then Rest (r_id o) (r_side o) (r_price o) (sn_quantity row) else o) mk, c)
  end.
Definition sp_l2_side (s : side) (rows : list level_snapshot) (st : market * Z) : market * Z :=
  fold_left (fun st r => sp_l2_row s r st) rows
            (sp_keep_prices s (rows_prices rows) (fst st), snd st).
Definition sp_l2 (asks bids : list level_snapshot) (st : market * Z) : market * Z :=
  sp_l2_side Bid bids (sp_l2_side Ask asks st).

(** Decomposition of a snapshot row: the difference with the resting quantity
    becomes one order at that price. *)
Definition sp_dec_row (s : side) (row : level_snapshot) (st : market * Z * list order_enum)
  : market * Z * list order_enum :=
  let '(mk, c, os) := st in
  let p := sn_price row in
  let d := sn_quantity row - level_qty s p mk in
  if 0 <? d then
    let o := LimitOrder p d s c in (sp_add o mk, c + 1, os ++ [OLimit o])
  else if d <? 0 then
    (fst (sp_remove_any s p (- d) mk), c, os ++ [ORemove (RemoveAny p (- d) s)])
  else st.

(** The distinct prices of a side, lowest first. *)
Fixpoint insert_price (p : Z) (l : list Z) : list Z :=
  match l with
  | [] => [p]
  | x :: t => if p <? x then p :: l else if p =? x then l else x :: insert_price p t
  end.
Definition prices (s : side) (mk : market) : list Z :=
  fold_right insert_price [] (map r_price (on_side s mk)).

Definition sp_dec_side (s : side) (rows : list level_snapshot) (st : market * Z)
  : market * Z * list order_enum :=
  let '(mk, c) := st in
  let gone := map (fun p => ORemove (RemoveAny p (level_qty s p mk) s))
                  (filter (fun p => negb (price_in p (rows_prices rows))) (prices s mk)) in
  let '(mk', c', os) := fold_left (fun st r => sp_dec_row s r st) rows (mk, c, []) in
  (sp_keep_prices s (rows_prices rows) mk', c', os ++ gone).
Definition sp_dec (asks bids : list level_snapshot) (st : market * Z)
  : market * Z * list order_enum :=
  let '(mk1, c1, oa) := sp_dec_side Ask asks st in
  let '(mk2, c2, ob) := sp_dec_side Bid bids (mk1, c1) in
  (mk2, c2, oa ++ ob).

(** ** Requests, replies and histories *)
Inductive request : Type :=
| QAdd (o : limit_order)                     (* OrderBook::add_limit_order *)
| QLimit (o : limit_order)                   (* OrderBook::process_limit_order *)
| QMarket (o : market_order)                 (* OrderBook::process_market_order *)
| QCancel (id : Z)                           (* OrderBook::cancel_order *)
| QModify (o : modify_order)                 (* OrderBook::modify_order *)
| QChangeQty (id q : Z)                      (* OrderBook::change_quantity *)
| QRemove (o : remove_any)                   (* OrderBook::remove_order *)
| QSnapshot (asks bids : list level_snapshot) (* update_from_quote_snapshot, own id *)
| QDecompose (asks bids : list level_snapshot). (* decomposed_orders_with_update *)

Inductive reply : Type :=
| AUnit
| ABool (found : bool)
| ATrade (t : option (trade_history * Z))
| ALeft (leftover : option Z)
| AOrders (os : list order_enum)
| AError.

(** The reference exchange: market and next virtual order id. *)
Definition sp_step (st : market * Z) (r : request) : market * Z * reply :=
  let '(mk, c) := st in
  match r with
  | QAdd o => (sp_add o mk, c, AUnit)
  | QLimit o => let '(mk', t) := sp_limit o mk in (mk', c, ATrade t)
  | QMarket o => let '(mk', t) := sp_market o mk in (mk', c, ATrade t)
  | QCancel id => let '(mk', ok) := sp_cancel id mk in (mk', c, ABool ok)
  | QModify o => let '(mk', t) := sp_modify o mk in (mk', c, ATrade t)
  | QChangeQty id q => let '(mk', ok) := sp_change_quantity id q mk in (mk', c, ABool ok)
  | QRemove o => let '(mk', leftover) := sp_remove_any (ra_side o) (ra_price o) (ra_quantity o) mk in
                 (mk', c, ALeft (Some leftover))
  | QSnapshot asks bids => let '(mk', c') := sp_l2 asks bids st in (mk', c', AUnit)
  | QDecompose asks bids => let '(mk', c', os) := sp_dec asks bids st in (mk', c', AOrders os)
  end.

Fixpoint sp_run (st : market * Z) (rs : list request) : market * Z * list reply :=
  match rs with
  | [] => (fst st, snd st, [])
  | r :: t => let '(mk, c, a) := sp_step st r in
              let '(mk', c', az) := sp_run (mk, c) t in (mk', c', a :: az)
  end.

(** ** Which requests the guarantees are about *)

Definition ids (mk : market) : list Z := map r_id mk.

(** A new order: unused id, positive quantity, i64 price, and the side's total
    quantity still fits u64. *)
Definition fresh_order (mk : market) (id : Z) (s : side) (p q : Z) : Prop :=
  ~ In id (ids mk) /\ 0 < q /\ is_i64 p /\ side_qty s mk + q < two64.

(** The opposite side is empty and the limit is the extreme i64 price: the one
    case in which process_limit_order drops the order (see limit_order_dropped_refuted). *)
Definition extreme_price (s : side) : Z := match s with Ask => i64_max | Bid => i64_min end.
Definition not_extreme (mk : market) (s : side) (p : Z) : Prop :=
  on_side (other s) mk = [] -> p <> extreme_price (other s).

(** Snapshot rows of one side: distinct prices, positive quantities, sums fit. *)
Definition rows_ok (s : side) (rows : list level_snapshot) (mk : market) : Prop :=
  NoDup (rows_prices rows) /\
  Forall (fun r => 0 < sn_quantity r /\ is_i64 (sn_price r)) rows /\
  side_qty s mk + fold_right (fun r a => sn_quantity r + a) 0 rows < two64.

(** Virtual ids issued from [c] on are unused, and the counter does not wrap. *)
Definition counter_ok (c : Z) (n : nat) (mk : market) : Prop :=
  Forall (fun o => r_id o < c) mk /\ 0 <= c /\ c + Z.of_nat n < two64.

Definition one_per_level (mk : market) : Prop :=
  forall s p, (length (at_price s p mk) <= 1)%nat.

Definition valid (st : market * Z) (r : request) : Prop :=
  let '(mk, c) := st in
  match r with
  | QAdd o => fresh_order mk (lo_id o) (lo_side o) (lo_price o) (lo_quantity o)
  | QLimit o => fresh_order mk (lo_id o) (lo_side o) (lo_price o) (lo_quantity o) /\
                not_extreme mk (lo_side o) (lo_price o)
  | QMarket o => mo_side o = Bid /\ is_u64 (mo_quantity o)
  | QCancel _ => True
  | QModify o =>
      forall x, lookup (mod_id o) mk = Some x ->
        0 < mod_quantity o /\ is_i64 (mod_price o) /\
        side_qty (r_side x) mk + mod_quantity o < two64 /\
        not_extreme mk (r_side x) (mod_price o)
  | QChangeQty id q =>
      forall x, lookup id mk = Some x -> 0 < q /\ side_qty (r_side x) mk + q < two64
  | QRemove o => is_u64 (ra_quantity o)
  | QSnapshot asks bids =>
      rows_ok Ask asks mk /\ rows_ok Bid bids mk /\ one_per_level mk /\
      counter_ok c (length asks + length bids) mk
  | QDecompose asks bids =>
      rows_ok Ask asks mk /\ rows_ok Bid bids mk /\
      counter_ok c (length asks + length bids) mk
  end.

(** Every request of the history is valid in the state the reference exchange
    has reached when it is made. *)
Fixpoint valid_history (st : market * Z) (rs : list request) : Prop :=
  match rs with
  | [] => True
  | r :: t => valid st r /\ valid_history (fst (sp_step st r)) t
  end.
