(** OBModel.v -- the limit order book of trading-engine, function by function.

    Conventions.
    - [u64] / [i64] values are [Z]; arithmetic goes through [uadd]/[usub] of
      Base.v so overflow panics or wraps exactly as in the chosen binary.
    - [BTreeMap<BookPrice, Level>] is an association list kept in strictly
      increasing key order by [bt_insert]; iteration = list order.
    - [FxHashMap<OrderId, BookPrice>] is a [gmap Z Z] (std++), never iterated.
    - [VecDeque] is a list, front first.
    - A method taking [&mut self] returns the new receiver.
    - Log messages, [Debug]/[String] rendering and error texts are not modelled. *)
From Coq Require Import ZArith List Lia.
From stdpp Require Import base gmap.
From Verif Require Import Base OBTypes.
Import ListNotations.
Open Scope Z_scope.

(** ** BTreeMap as a sorted association list *)
Section btree.
  Context {V : Type}.
  (** BTreeMap::get *)
  Fixpoint bt_get (k : Z) (m : list (Z * V)) : option V :=
    match m with
    | [] => None
    | (k', v) :: t => if k =? k' then Some v else bt_get k t
    end.
  (** BTreeMap::insert (also models a write through get_mut at an existing key) *)
  Fixpoint bt_insert (k : Z) (v : V) (m : list (Z * V)) : list (Z * V) :=
    match m with
    | [] => [(k, v)]
    | (k', v') :: t =>
        if k <? k' then (k, v) :: (k', v') :: t
        else if k =? k' then (k, v) :: t
        else (k', v') :: bt_insert k v t
    end.
  (** BTreeMap::remove *)
  Fixpoint bt_remove (k : Z) (m : list (Z * V)) : list (Z * V) :=
    match m with
    | [] => []
    | (k', v') :: t => if k =? k' then t else (k', v') :: bt_remove k t
    end.
  (** levels.iter().next() / first_key_value() *)
  Definition bt_first_key (m : list (Z * V)) : option Z :=
    match m with [] => None | (k, _) :: _ => Some k end.
  (** levels.iter().next_back() / last_key_value() *)
  Definition bt_last_key (m : list (Z * V)) : option Z := bt_first_key (rev m).
End btree.

(** ** Level: orderbook/level.rs *)

(** level.rs 12-16 *)
Record level := Level {
  l_price : Z; l_orders : list (Z * Z); l_total : Z }.

(** level.rs 21-28 ([as u32] kept exact: simplification, the number of orders
    in a level is assumed to be below 2^32). *)
Definition level_to_snapshot (l : level) : level_snapshot :=
  LevelSnapshot (Some (Z.of_nat (length (l_orders l)))) (l_price l) (l_total l) None.

(** level.rs 31-37 *)
Definition level_initialize (p : Z) : level := Level p [] 0.

(** level.rs 47-55 *)
Definition level_initialize_with_order (o : limit_order) : level :=
  Level (lo_price o) [(lo_id o, lo_quantity o)] (lo_quantity o).

(** level.rs 57-74 *)
Definition level_add (m : build) (l : level) (o : limit_order) : outcome (rresult level) :=
  if l_price l =? lo_price o then
    let! t := uadd m (l_total l) (lo_quantity o) in
    Ret (ROk (Level (l_price l) (l_orders l ++ [(lo_id o, lo_quantity o)]) t))
  else Ret RErr.

(** level.rs 80-82: position of the first order with this id, together with
    VecDeque::remove at that position. *)
Fixpoint extract_id (id : Z) (l : list (Z * Z)) : option (Z * list (Z * Z)) :=
  match l with
  | [] => None
  | (k, q) :: t =>
      if k =? id then Some (q, t)
      else match extract_id id t with
           | Some (q', t') => Some (q', (k, q) :: t')
           | None => None
           end
  end.

(** level.rs 79-88.  Returns (level, (removed, remaining total)). *)
Definition level_cancel (m : build) (l : level) (id : Z)
  : outcome (option (level * (Z * Z))) :=
  match extract_id id (l_orders l) with
  | Some (q, os) =>
      let! t := usub m (l_total l) q in
      Ret (Some (Level (l_price l) os t, (q, t)))
  | None => Ret None
  end.

(** level.rs 92-102 *)
Definition level_get_order (l : level) (id : Z) (s : side) : option limit_order :=
  match find (fun kq => fst kq =? id) (l_orders l) with
  | Some (k, q) => Some (LimitOrder (l_price l) q s k)
  | None => None
  end.

(** level.rs 106-108 *)
Definition level_is_empty (l : level) : bool :=
  match l_orders l with [] => true | _ => false end.

(** level.rs 123-148: the [while remaining > 0] loop over the queue.  Each
    iteration either finishes (remaining becomes 0) or pops the front, so the
    recursion is structural in the queue.
    Result: (traded ids, remaining, level total, queue). *)
Fixpoint level_trade_loop (m : build) (orders : list (Z * Z)) (total remaining : Z)
    (ids : list Z) : outcome (list Z * Z * Z * list (Z * Z)) :=
  if 0 <? remaining then
    match orders with
    | [] => Ret (ids, remaining, total, [])
    | (id, q) :: rest =>
        if remaining <? q then
          let! q' := usub m q remaining in
          let! t' := usub m total remaining in
          Ret (ids, 0, t', (id, q') :: rest)
        else
          let! r' := usub m remaining q in
          let! t' := usub m total q in
          level_trade_loop m rest t' r' (ids ++ [id])
    end
  else Ret (ids, remaining, total, orders).

(** level.rs 123-148.  Result: (level, traded ids, remaining, level total). *)
Definition level_trade (m : build) (l : level) (quantity : Z)
  : outcome (level * list Z * Z * Z) :=
  match l_orders l with
  | [] => Ret (l, [], quantity, l_total l)
  | _ =>
      let! (ids, rem, t, os) := level_trade_loop m (l_orders l) (l_total l) quantity [] in
      Ret (Level (l_price l) os t, ids, rem, t)
  end.

(** level.rs 154-156: overwrite the quantity of the first order with this id;
    also returns the previous quantity. *)
Fixpoint set_qty (id q : Z) (l : list (Z * Z)) : option (Z * list (Z * Z)) :=
  match l with
  | [] => None
  | (k, v) :: t =>
      if k =? id then Some (v, (k, q) :: t)
      else match set_qty id q t with
           | Some (v', t') => Some (v', (k, v) :: t')
           | None => None
           end
  end.

(** level.rs 153-163 *)
Definition level_change_quantity (m : build) (l : level) (id q : Z)
  : outcome (option (level * Z)) :=
  match set_qty id q (l_orders l) with
  | Some (old, os) =>
      let! t1 := uadd m (l_total l) q in
      let! t2 := usub m t1 old in
      Ret (Some (Level (l_price l) os t2, old))
  | None => Ret None
  end.

(** ** HalfBook: orderbook/half_book.rs *)

(** half_book.rs 22-31 *)
Record half := Half {
  h_side : side;
  h_levels : list (Z * level);
  h_cache : gmap Z Z;
  h_best : Z;
  h_total : Z }.

(** half_book.rs 35-47 *)
Definition half_eq_level (a b : half) : bool :=
  (h_total a =? h_total b) &&
  forallb (fun pl => match bt_get (fst pl) (h_levels b) with
                     | Some l' => l_total (snd pl) =? l_total l'
                     | None => false
                     end) (h_levels a).

(** half_book.rs 50-54 *)
Definition half_to_snapshot (h : half) : list level_snapshot :=
  map (fun pl => level_to_snapshot (snd pl)) (h_levels h).

(** half_book.rs 261-265: BookPrice::MAX / BookPrice::MIN *)
Definition sentinel (s : side) : Z := match s with Ask => i64_max | Bid => i64_min end.

(** half_book.rs 260-273 *)
Definition half_initialize (s : side) : half := Half s [] ∅ (sentinel s) 0.

(** half_book.rs 276-290 *)
Definition half_initialize_with_limit_order (o : limit_order) : half :=
  Half (lo_side o) [(lo_price o, level_initialize_with_order o)]
       {[ lo_id o := lo_price o ]} (lo_price o) (lo_quantity o).

(** half_book.rs 299-308 *)
Definition half_clear (h : half) : half := Half (h_side h) [] ∅ (sentinel (h_side h)) 0.

(** half_book.rs 311-313 *)
Definition half_is_empty (h : half) : bool :=
  match h_levels h with [] => true | _ => false end.

(** half_book.rs 328-342: the value assigned to best_price *)
Definition best_of (s : side) (levels : list (Z * level)) : Z :=
  match (match s with Ask => bt_first_key levels | Bid => bt_last_key levels end) with
  | Some p => p
  | None => sentinel s
  end.

(** half_book.rs 328-342 *)
Definition half_reinit_best (h : half) : half :=
  Half (h_side h) (h_levels h) (h_cache h) (best_of (h_side h) (h_levels h)) (h_total h).

(** half_book.rs 316-325 *)
Definition upd_best (s : side) (best p : Z) : Z :=
  match s with Ask => Z.min best p | Bid => Z.max best p end.

(** half_book.rs 233-238.  [Panic] is [unwrap] on [None]. *)
Definition half_get_order (h : half) (id : Z) : outcome (option limit_order) :=
  match h_cache h !! id with
  | None => Ret None
  | Some p =>
      match bt_get p (h_levels h) with
      | None => Panic
      | Some l => match level_get_order l id (h_side h) with
                  | None => Panic
                  | Some o => Ret (Some o)
                  end
      end
  end.

(** half_book.rs 62-77 *)
Definition half_remove_level (m : build) (h : half) (p : Z) : outcome half :=
  let '(cache, level_total) :=
    match bt_get p (h_levels h) with
    | Some l => (fold_left (fun c o => delete (fst o) c) (l_orders l) (h_cache h), l_total l)
    | None => (h_cache h, 0)
    end in
  let! t := usub m (h_total h) level_total in
  let h' := Half (h_side h) (bt_remove p (h_levels h)) cache (h_best h) t in
  Ret (if p =? h_best h then half_reinit_best h' else h').

(** half_book.rs 345-369.  [ROk h] / [RErr] are the two results; on [RErr]
    from the level the receiver has already been changed, but that branch is
    unreachable through the map (the level stored under a price carries that
    price), so the receiver is dropped: simplification. *)
Definition half_add (m : build) (h : half) (o : limit_order) : outcome (rresult half) :=
  if negb (side_eqb (lo_side o) (h_side h)) then Ret RErr
  else
    let best := upd_best (h_side h) (h_best h) (lo_price o) in
    let cache := <[ lo_id o := lo_price o ]> (h_cache h) in
    let! t := uadd m (h_total h) (lo_quantity o) in
    match bt_get (lo_price o) (h_levels h) with
    | Some l =>
        let! r := level_add m l o in
        match r with
        | ROk l' => Ret (ROk (Half (h_side h) (bt_insert (lo_price o) l' (h_levels h)) cache best t))
        | RErr => Ret RErr
        end
    | None =>
        Ret (ROk (Half (h_side h)
                    (bt_insert (lo_price o) (level_initialize_with_order o) (h_levels h))
                    cache best t))
    end.

(** half_book.rs 381-405: [while remaining > 0] over the back of the queue.
    The queue is passed reversed (back first).  Not structural: when the back
    order has quantity 0 nothing is popped, so the loop runs on fuel and an
    exhausted fuel is [Diverge].  [remove_loop_spec] in OBRemove.v shows
    that the fuel used by [half_remove_order] is never exhausted unless a
    zero-quantity order is reached, and [remove_loop_spins] that in that case
    every amount of fuel is exhausted.
    State: (reversed queue, level total, half total, cache, remaining). *)
Fixpoint remove_loop (m : build) (fuel : nat) (rq : list (Z * Z))
    (ltotal htotal : Z) (cache : gmap Z Z) (remaining : Z)
  : outcome (list (Z * Z) * Z * Z * gmap Z Z * Z) :=
  if 0 <? remaining then
    match fuel with
    | O => Diverge
    | S fuel' =>
        match rq with
        | [] => Ret (rq, ltotal, htotal, cache, remaining)
        | (id, qty) :: rest =>
            if qty <=? remaining then
              let! r' := usub m remaining qty in
              let! ht' := usub m htotal qty in
              let! lt' := usub m ltotal qty in
              remove_loop m fuel' (if 0 <? qty then rest else rq) lt' ht' (delete id cache) r'
            else
              let! q' := usub m qty remaining in
              let! lt' := usub m ltotal remaining in
              let! ht' := usub m htotal remaining in
              remove_loop m fuel' ((id, q') :: rest) lt' ht' cache 0
        end
    end
  else Ret (rq, ltotal, htotal, cache, remaining).

(** half_book.rs 373-419.  [None] = side mismatch. *)
Definition half_remove_order (m : build) (h : half) (o : remove_any)
  : outcome (half * option Z) :=
  if negb (side_eqb (h_side h) (ra_side o)) then Ret (h, None)
  else
    match bt_get (ra_price o) (h_levels h) with
    | None => Ret (h, Some (ra_quantity o))
    | Some l =>
        let! (rq, lt, ht, cache, rem) :=
          remove_loop m (S (length (l_orders l))) (rev (l_orders l))
                      (l_total l) (h_total h) (h_cache h) (ra_quantity o) in
        let l' := Level (l_price l) (rev rq) lt in
        let h' := Half (h_side h) (bt_insert (ra_price o) l' (h_levels h)) cache (h_best h) ht in
        Ret (if level_is_empty l'
             then half_reinit_best (Half (h_side h) (bt_remove (ra_price o) (h_levels h'))
                                         cache (h_best h) ht)
             else h', Some rem)
    end.

(** half_book.rs 425-467.  [true] is [Some(())]. *)
Definition half_cancel (m : build) (h : half) (id : Z) : outcome (half * bool) :=
  match h_cache h !! id with
  | None => Ret (h, false)
  | Some p =>
      let cache := delete id (h_cache h) in
      match bt_get p (h_levels h) with
      | None => Ret (Half (h_side h) (h_levels h) cache (h_best h) (h_total h), false)
      | Some l =>
          let! r := level_cancel m l id in
          match r with
          | None => Ret (Half (h_side h) (h_levels h) cache (h_best h) (h_total h), false)
          | Some (l', (removed, remained)) =>
              let! t := usub m (h_total h) removed in
              if remained =? 0 then
                let levels := bt_remove p (h_levels h) in
                let best := if p =? h_best h then best_of (h_side h) levels else h_best h in
                Ret (Half (h_side h) levels cache best t, true)
              else
                Ret (Half (h_side h) (bt_insert p l' (h_levels h)) cache (h_best h) t, true)
          end
      end
  end.

(** half_book.rs 470-472 *)
Definition half_get_price (h : half) (id : Z) : option Z := h_cache h !! id.

(** half_book.rs 476-515.  [true] is [Some(())]. *)
Definition half_change_price (m : build) (h : half) (id new_price : Z) : outcome (half * bool) :=
  match h_cache h !! id with
  | None => Ret (h, false)
  | Some p =>
      let cache := <[ id := new_price ]> (h_cache h) in
      match bt_get p (h_levels h) with
      | None => Ret (Half (h_side h) (h_levels h) cache (h_best h) (h_total h), false)
      | Some l =>
          let! r := level_cancel m l id in
          match r with
          | None => Ret (Half (h_side h) (h_levels h) cache (h_best h) (h_total h), false)
          | Some (l', (removed, remained)) =>
              let! t := usub m (h_total h) removed in
              let levels := if remained =? 0 then bt_remove p (h_levels h)
                            else bt_insert p l' (h_levels h) in
              let! r2 := half_add m (Half (h_side h) levels cache (h_best h) t)
                                  (LimitOrder new_price removed (h_side h) id) in
              match r2 with
              | ROk h' => Ret (half_reinit_best h', true)
              | RErr => Panic
              end
          end
      end
  end.

(** half_book.rs 518-553.  [true] is [Some(())]. *)
Definition half_change_quantity (m : build) (h : half) (id q : Z) : outcome (half * bool) :=
  match h_cache h !! id with
  | None => Ret (h, false)
  | Some p =>
      match bt_get p (h_levels h) with
      | None => Ret (h, false)
      | Some l =>
          let! r := level_change_quantity m l id q in
          match r with
          | None => Ret (h, false)
          | Some (l', old) =>
              let! t1 := usub m (h_total h) old in
              let! t2 := uadd m t1 q in
              let h' := Half (h_side h) (bt_insert p l' (h_levels h)) (h_cache h) (h_best h) t2 in
              if l_total l' =? 0 then
                let h'' := Half (h_side h) (bt_remove p (h_levels h)) (h_cache h) (h_best h) t2 in
                Ret (if p =? h_best h then half_reinit_best h'' else h'', true)
              else Ret (h', true)
          end
      end
  end.

(** half_book.rs 557-559 *)
Definition half_quantity_at (h : half) (p : Z) : Z :=
  match bt_get p (h_levels h) with Some l => l_total l | None => 0 end.

(** half_book.rs 563-565 *)
Definition half_aggregate (h : half) : Z := h_total h.

(** What the four trading loops return: visited levels (updated), trade
    history, prices to remove, ids to remove, half total, remaining. *)
Definition sweep_state : Type :=
  (list (Z * level) * trade_history * list Z * list Z * Z * Z)%type.

(** half_book.rs 600-624 (ascending iteration: pass the levels as stored). *)
Fixpoint ask_market_loop (m : build) (levels : list (Z * level)) (hist : trade_history)
    (rmp rmi : list Z) (htotal remaining : Z) : outcome sweep_state :=
  match levels with
  | [] => Ret ([], hist, rmp, rmi, htotal, remaining)
  | (p, l) :: rest =>
      let! (l', ids, rem, level_rem) := level_trade m l remaining in
      let traded := usat_sub remaining rem in
      let! (hist', ht') :=
        (if 0 <? traded then
           let! t := usub m htotal traded in Ret (hist ++ [(p, traded)], t)
         else Ret (hist, htotal)) in
      let rmp' := if level_rem =? 0 then rmp ++ [p] else rmp in
      if rem =? 0 then Ret ((p, l') :: rest, hist', rmp', rmi ++ ids, ht', rem)
      else
        let! (rest', hist'', rmp'', rmi'', ht'', rem'') :=
          ask_market_loop m rest hist' rmp' (rmi ++ ids) ht' rem in
        Ret ((p, l') :: rest', hist'', rmp'', rmi'', ht'', rem'')
  end.

(** half_book.rs 627-652 (descending iteration: pass the levels reversed).
    Line 641 subtracts the traded quantity from the level a second time. *)
Fixpoint bid_market_loop (m : build) (levels : list (Z * level)) (hist : trade_history)
    (rmp rmi : list Z) (htotal remaining : Z) : outcome sweep_state :=
  match levels with
  | [] => Ret ([], hist, rmp, rmi, htotal, remaining)
  | (p, l) :: rest =>
      let! (l', ids, rem, level_rem) := level_trade m l remaining in
      let traded := usat_sub remaining rem in
      let! (hist', ht', l'') :=
        (if 0 <? traded then
           let! t := usub m htotal traded in
           let! lt := usub m (l_total l') traded in
           Ret (hist ++ [(p, traded)], t, Level (l_price l') (l_orders l') lt)
         else Ret (hist, htotal, l')) in
      let rmp' := if level_rem =? 0 then rmp ++ [p] else rmp in
      if rem =? 0 then Ret ((p, l'') :: rest, hist', rmp', rmi ++ ids, ht', rem)
      else
        let! (rest', hist'', rmp'', rmi'', ht'', rem'') :=
          bid_market_loop m rest hist' rmp' (rmi ++ ids) ht' rem in
        Ret ((p, l'') :: rest', hist'', rmp'', rmi'', ht'', rem'')
  end.

(** half_book.rs 655-681 *)
Fixpoint ask_limit_loop (m : build) (order_price : Z) (levels : list (Z * level))
    (hist : trade_history) (rmp rmi : list Z) (htotal remaining : Z) : outcome sweep_state :=
  match levels with
  | [] => Ret ([], hist, rmp, rmi, htotal, remaining)
  | (p, l) :: rest =>
      if (order_price <? p) || (remaining =? 0)
      then Ret (levels, hist, rmp, rmi, htotal, remaining)
      else
        let! (l', ids, rem, level_rem) := level_trade m l remaining in
        let traded := usat_sub remaining rem in
        let! (hist', ht') :=
          (if 0 <? traded then
             let! t := usub m htotal traded in Ret (hist ++ [(p, traded)], t)
           else Ret (hist, htotal)) in
        let rmp' := if level_rem =? 0 then rmp ++ [p] else rmp in
        let! (rest', hist'', rmp'', rmi'', ht'', rem'') :=
          ask_limit_loop m order_price rest hist' rmp' (rmi ++ ids) ht' rem in
        Ret ((p, l') :: rest', hist'', rmp'', rmi'', ht'', rem'')
  end.

(** half_book.rs 684-710 (levels passed reversed) *)
Fixpoint bid_limit_loop (m : build) (order_price : Z) (levels : list (Z * level))
    (hist : trade_history) (rmp rmi : list Z) (htotal remaining : Z) : outcome sweep_state :=
  match levels with
  | [] => Ret ([], hist, rmp, rmi, htotal, remaining)
  | (p, l) :: rest =>
      if (p <? order_price) || (remaining =? 0)
      then Ret (levels, hist, rmp, rmi, htotal, remaining)
      else
        let! (l', ids, rem, level_rem) := level_trade m l remaining in
        let traded := usat_sub remaining rem in
        let! (hist', ht') :=
          (if 0 <? traded then
             let! t := usub m htotal traded in Ret (hist ++ [(p, traded)], t)
           else Ret (hist, htotal)) in
        let rmp' := if level_rem =? 0 then rmp ++ [p] else rmp in
        let! (rest', hist'', rmp'', rmi'', ht'', rem'') :=
          bid_limit_loop m order_price rest hist' rmp' (rmi ++ ids) ht' rem in
        Ret ((p, l') :: rest', hist'', rmp'', rmi'', ht'', rem'')
  end.

(** half_book.rs 712-720 *)
Definition half_cleanup (h : half) (rmp rmi : list Z) : half :=
  half_reinit_best
    (Half (h_side h)
          (fold_left (fun ls p => bt_remove p ls) rmp (h_levels h))
          (fold_left (fun c i => delete i c) rmi (h_cache h))
          (h_best h) (h_total h)).

(** half_book.rs 573-592 *)
Definition half_trade_market (m : build) (h : half) (o : market_order)
  : outcome (half * option (trade_history * Z)) :=
  if half_is_empty h || side_eqb (mo_side o) (h_side h) then Ret (h, None)
  else
    let! (levels, hist, rmp, rmi, ht, rem) :=
      match h_side h with
      | Ask => ask_market_loop m (h_levels h) [] [] [] (h_total h) (mo_quantity o)
      | Bid =>
          let! (lv, hist, rmp, rmi, ht, rem) :=
            bid_market_loop m (rev (h_levels h)) [] [] [] (h_total h) (mo_quantity o) in
          Ret (rev lv, hist, rmp, rmi, ht, rem)
      end in
    Ret (half_cleanup (Half (h_side h) levels (h_cache h) (h_best h) ht) rmp rmi,
         Some (hist, rem)).

(** half_book.rs 729-750 *)
Definition half_trade_limit (m : build) (h : half) (o : limit_order)
  : outcome (half * option (trade_history * Z)) :=
  if side_eqb (h_side h) (lo_side o)
     || half_is_empty h
     || (side_eqb (h_side h) Ask && (lo_price o <? h_best h))
     || (side_eqb (h_side h) Bid && (h_best h <? lo_price o))
  then Ret (h, None)
  else
    let! (levels, hist, rmp, rmi, ht, rem) :=
      match h_side h with
      | Ask => ask_limit_loop m (lo_price o) (h_levels h) [] [] [] (h_total h) (lo_quantity o)
      | Bid =>
          let! (lv, hist, rmp, rmi, ht, rem) :=
            bid_limit_loop m (lo_price o) (rev (h_levels h)) [] [] [] (h_total h) (lo_quantity o) in
          Ret (rev lv, hist, rmp, rmi, ht, rem)
      end in
    Ret (half_cleanup (Half (h_side h) levels (h_cache h) (h_best h) ht) rmp rmi,
         Some (hist, rem)).

(** half_book.rs 753-759: the running sum is u64 arithmetic. *)
Fixpoint sum_levels (m : build) (acc : Z) (levels : list (Z * level)) : outcome Z :=
  match levels with
  | [] => Ret acc
  | (_, l) :: t => let! a := uadd m acc (l_total l) in sum_levels m a t
  end.

(** half_book.rs 753-759 *)
Definition half_check_validity (m : build) (h : half) : outcome bool :=
  let! t := sum_levels m 0 (h_levels h) in Ret (t =? h_total h).

(** types/base.rs 21-25: VirtualOrderId::next_id.  Result (id, counter). *)
Definition next_id (m : build) (counter : Z) : outcome (Z * Z) :=
  let! c := uadd m counter 1 in Ret (counter, c).

(** half_book.rs 83-129, first loop (lines 89-99) *)
Fixpoint l2_remove_missing (m : build) (h : half) (ps : list Z) : outcome half :=
  match ps with
  | [] => Ret h
  | p :: t => let! h' := half_remove_level m h p in l2_remove_missing m h' t
  end.

(** VecDeque::back_mut followed by a write of the quantity: the queue with the
    last order's quantity replaced, and the previous quantity. *)
Definition set_back (q : Z) (os : list (Z * Z)) : option (Z * list (Z * Z)) :=
  match rev os with
  | [] => None
  | (id, old) :: t => Some (old, rev ((id, q) :: t))
  end.

(** half_book.rs 101-124, one iteration.  Result: receiver, counter, and
    whether the iteration went through ([false] = the early [return Err]). *)
Definition l2_apply_one (m : build) (h : half) (counter : Z) (s : level_snapshot)
  : outcome (half * Z * bool) :=
  let p := sn_price s in
  let q := sn_quantity s in
  match bt_get p (h_levels h) with
  | Some l =>
      match set_back q (l_orders l) with
      | Some (old, os) =>
          let! t1 := uadd m (h_total h) q in
          let! t2 := usub m t1 old in
          Ret (Half (h_side h) (bt_insert p (Level (l_price l) os q) (h_levels h))
                    (h_cache h) (h_best h) t2, counter, true)
      | None => Ret (h, counter, false)
      end
  | None =>
      let! (id, c') := next_id m counter in
      let! t := uadd m (h_total h) q in
      Ret (Half (h_side h) (bt_insert p (Level p [(id, q)] q) (h_levels h))
                (<[ id := p ]> (h_cache h)) (h_best h) t, c', true)
  end.

(** half_book.rs 101-124 *)
Fixpoint l2_apply (m : build) (h : half) (counter : Z) (ss : list level_snapshot)
  : outcome (half * Z * bool) :=
  match ss with
  | [] => Ret (h, counter, true)
  | s :: t =>
      let! (h', c', ok) := l2_apply_one m h counter s in
      if ok : bool then l2_apply m h' c' t else Ret (h', c', false)
  end.

(** Vec::contains on prices *)
Definition contains_price (ps : list Z) (p : Z) : bool := existsb (fun x => p =? x) ps.

(** half_book.rs 83-129.  On [false] (Err) the best price is not repaired. *)
Definition half_update_l2 (m : build) (h : half) (ss : list level_snapshot) (counter : Z)
  : outcome (half * Z * bool) :=
  let ps := map sn_price ss in
  let gone := List.filter (fun p => negb (contains_price ps p)) (map fst (h_levels h)) in
  let! h1 := l2_remove_missing m h gone in
  let! (h2, c', ok) := l2_apply m h1 counter ss in
  Ret (if ok : bool then half_reinit_best h2 else h2, c', ok).

(** half_book.rs 137-171: orders for the rows of the snapshot. *)
Fixpoint decompose_rows (m : build) (h : half) (counter : Z) (ss : list level_snapshot)
  : outcome (list order_enum * Z) :=
  match ss with
  | [] => Ret ([], counter)
  | s :: t =>
      let p := sn_price s in
      let cur := sn_quantity s in
      let! (os, c') :=
        match bt_get p (h_levels h) with
        | Some l =>
            let prev := l_total l in
            if cur <? prev then
              let! q := usub m prev cur in
              Ret ([ORemove (RemoveAny p q (h_side h))], counter)
            else if prev <? cur then
              let! q := usub m cur prev in
              let! (id, c') := next_id m counter in
              Ret ([OLimit (LimitOrder p q (h_side h) id)], c')
            else Ret ([], counter)
        | None =>
            let! (id, c') := next_id m counter in
            Ret ([OLimit (LimitOrder p cur (h_side h) id)], c')
        end in
      let! (os', c'') := decompose_rows m h c' t in
      Ret (os ++ os', c'')
  end.

(** half_book.rs 173-185: orders for the prices that disappeared. *)
Definition decompose_gone (h : half) (ss : list level_snapshot) : list order_enum :=
  let ps := map sn_price ss in
  map (fun pl => ORemove (RemoveAny (fst pl) (l_total (snd pl)) (h_side h)))
      (List.filter (fun pl => negb (contains_price ps (fst pl))) (h_levels h)).

(** half_book.rs 186-198, one iteration. *)
Definition apply_order (m : build) (h : half) (o : order_enum) : outcome (rresult half) :=
  match o with
  | OLimit lo => half_add m h lo
  | ORemove ra => let! (h', _) := half_remove_order m h ra in Ret (ROk h')
  end.

(** half_book.rs 186-198 *)
Fixpoint apply_orders (m : build) (h : half) (os : list order_enum) : outcome (rresult half) :=
  match os with
  | [] => Ret (ROk h)
  | o :: t =>
      let! r := apply_order m h o in
      match r with ROk h' => apply_orders m h' t | RErr => Ret RErr end
  end.

(** half_book.rs 131-204 *)
Definition half_decompose (m : build) (h : half) (ss : list level_snapshot) (counter : Z)
  : outcome (rresult (half * Z * list order_enum)) :=
  let! (os1, c') := decompose_rows m h counter ss in
  let os := os1 ++ decompose_gone h ss in
  let! r := apply_orders m h os in
  match r with
  | ROk h' => Ret (ROk (h', c', os))
  | RErr => Ret RErr
  end.

(** ** OrderBook: orderbook/mod.rs *)

(** mod.rs 38-46.  [InstId] is an opaque token compared by equality; the two
    timestamps are never read by the functions below and are omitted. *)
Record book := Book { b_asks : half; b_bids : half; b_id : Z; b_counter : Z }.

(** mod.rs 179-188 *)
Definition book_initialize (id : Z) : book :=
  Book (half_initialize Ask) (half_initialize Bid) id 0.

(** mod.rs 37 [#[derive(Default)]] with half_book.rs 21 and enums.rs 13-15:
    the derived default of both halves has side Ask and best price 0. *)
Definition book_default (id : Z) : book := Book (Half Ask [] ∅ 0 0) (Half Ask [] ∅ 0 0) id 0.

Definition set_asks (b : book) (h : half) : book := Book h (b_bids b) (b_id b) (b_counter b).
Definition set_bids (b : book) (h : half) : book := Book (b_asks b) h (b_id b) (b_counter b).
Definition side_half (b : book) (s : side) : half :=
  match s with Ask => b_asks b | Bid => b_bids b end.
Definition set_side (b : book) (s : side) (h : half) : book :=
  match s with Ask => set_asks b h | Bid => set_bids b h end.

(** mod.rs 62-64 *)
Definition book_eq_level (a b : book) : bool :=
  half_eq_level (b_asks a) (b_asks b) && half_eq_level (b_bids a) (b_bids b).

(** mod.rs 67-95.  The DecomposedOrder wrapper (timestamp, id) is dropped. *)
Definition book_decompose (m : build) (b : book) (asks bids : list level_snapshot)
  : outcome (rresult (book * list order_enum)) :=
  let! ra := half_decompose m (b_asks b) asks (b_counter b) in
  match ra with
  | RErr => Ret RErr
  | ROk (ha, c1, osa) =>
      let! rb := half_decompose m (b_bids b) bids c1 in
      match rb with
      | RErr => Ret RErr
      | ROk (hb, c2, osb) => Ret (ROk (Book ha hb (b_id b) c2, osa ++ osb))
      end
  end.

(** mod.rs 97-99 ([&&] is lazy) *)
Definition book_check_validity (m : build) (b : book) : outcome bool :=
  let! a := half_check_validity m (b_asks b) in
  if a then half_check_validity m (b_bids b) else Ret false.

(** mod.rs 101-128 (update_from_quote_snapshot with check_id) and 131-140
    (update_from_trade_quote_snapshot, same body on the same two fields).
    Result: the receiver and [true] for Ok(()), [false] for Err. *)
Definition book_update_from_snapshot (m : build) (b : book) (id : Z)
    (asks bids : list level_snapshot) : outcome (book * bool) :=
  if negb (b_id b =? id) then Ret (b, false)
  else
    let! (ha, c1, oka) := half_update_l2 m (b_asks b) asks (b_counter b) in
    if oka : bool then
      let! (hb, c2, okb) := half_update_l2 m (b_bids b) bids c1 in
      Ret (Book ha hb (b_id b) c2, okb)
    else Ret (Book ha (b_bids b) (b_id b) c1, false).

(** mod.rs 191-196 *)
Definition book_add (m : build) (b : book) (o : limit_order) : outcome (rresult book) :=
  let! r := half_add m (side_half b (lo_side o)) o in
  Ret (match r with ROk h => ROk (set_side b (lo_side o) h) | RErr => RErr end).

(** mod.rs 200-215: asks first, then ([||]) bids. *)
Definition book_cancel (m : build) (b : book) (id : Z) : outcome (book * bool) :=
  let! (ha, ok) := half_cancel m (b_asks b) id in
  let b1 := set_asks b ha in
  if ok then Ret (b1, true)
  else
    let! (hb, ok2) := half_cancel m (b_bids b1) id in
    Ret (set_bids b1 hb, ok2).

(** mod.rs 217-222 *)
Definition book_remove (m : build) (b : book) (o : remove_any) : outcome (book * option Z) :=
  let! (h, r) := half_remove_order m (side_half b (ra_side o)) o in
  Ret (set_side b (ra_side o) h, r).

(** mod.rs 295-313 *)
Definition book_change_quantity (m : build) (b : book) (id q : Z) : outcome (book * bool) :=
  let! (ha, ok) := half_change_quantity m (b_asks b) id q in
  let b1 := set_asks b ha in
  if ok then Ret (b1, true)
  else
    let! (hb, ok2) := half_change_quantity m (b_bids b1) id q in
    Ret (set_bids b1 hb, ok2).

(** mod.rs 316-351.  [Panic] in the [RErr] branches is [expect]. *)
Definition book_limit (m : build) (b : book) (o : limit_order)
  : outcome (book * option (trade_history * Z)) :=
  match lo_side o with
  | Ask =>
      if h_best (b_bids b) <? lo_price o then
        let! r := half_add m (b_asks b) o in
        match r with ROk h => Ret (set_asks b h, None) | RErr => Panic end
      else
        let! (hb, r) := half_trade_limit m (b_bids b) o in
        let b1 := set_bids b hb in
        match r with
        | Some (hist, rem) =>
            if 0 <? rem then
              let! r2 := half_add m (b_asks b1) (LimitOrder (lo_price o) rem (lo_side o) (lo_id o)) in
              match r2 with ROk h => Ret (set_asks b1 h, Some (hist, rem)) | RErr => Panic end
            else Ret (b1, Some (hist, rem))
        | None => Ret (b1, None)
        end
  | Bid =>
      if lo_price o <? h_best (b_asks b) then
        let! r := half_add m (b_bids b) o in
        match r with ROk h => Ret (set_bids b h, None) | RErr => Panic end
      else
        let! (ha, r) := half_trade_limit m (b_asks b) o in
        let b1 := set_asks b ha in
        match r with
        | Some (hist, rem) =>
            if 0 <? rem then
              let! r2 := half_add m (b_bids b1) (LimitOrder (lo_price o) rem (lo_side o) (lo_id o)) in
              match r2 with ROk h => Ret (set_bids b1 h, Some (hist, rem)) | RErr => Panic end
            else Ret (b1, Some (hist, rem))
        | None => Ret (b1, None)
        end
  end.

(** mod.rs 359-367 *)
Definition book_market (m : build) (b : book) (o : market_order)
  : outcome (book * option (trade_history * Z)) :=
  match mo_side o with
  | Ask => let! (h, r) := half_trade_market m (b_bids b) o in Ret (set_bids b h, r)
  | Bid => let! (h, r) := half_trade_market m (b_asks b) o in Ret (set_asks b h, r)
  end.

(** mod.rs 225-268 *)
Definition book_modify (m : build) (b : book) (o : modify_order)
  : outcome (book * option (trade_history * Z)) :=
  match h_cache (b_asks b) !! mod_id o with
  | Some p =>
      if p =? mod_price o then
        let! (h, _) := half_change_quantity m (b_asks b) (mod_id o) (mod_quantity o) in
        Ret (set_asks b h, None)
      else
        let! (h, _) := half_cancel m (b_asks b) (mod_id o) in
        book_limit m (set_asks b h) (LimitOrder (mod_price o) (mod_quantity o) Ask (mod_id o))
  | None =>
      match h_cache (b_bids b) !! mod_id o with
      | Some p =>
          if p =? mod_price o then
            let! (h, _) := half_change_quantity m (b_bids b) (mod_id o) (mod_quantity o) in
            Ret (set_bids b h, None)
          else
            let! (h, _) := half_cancel m (b_bids b) (mod_id o) in
            book_limit m (set_bids b h) (LimitOrder (mod_price o) (mod_quantity o) Bid (mod_id o))
      | None => Ret (b, None)
      end
  end.

(** mod.rs 273-291 (deprecated, private): asks first, then bids. *)
Definition book_change_price (m : build) (b : book) (id p : Z) : outcome (book * bool) :=
  let! (ha, ok) := half_change_price m (b_asks b) id p in
  let b1 := set_asks b ha in
  if ok then Ret (b1, true)
  else
    let! (hb, ok2) := half_change_price m (b_bids b1) id p in
    Ret (set_bids b1 hb, ok2).
