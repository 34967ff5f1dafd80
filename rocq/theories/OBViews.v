(** OBViews.v -- what a user of the order book can see, in plain terms, and
    which books the property theorems speak about. *)
From Coq Require Import ZArith List Bool.
From stdpp Require Import base gmap.
From Verif Require Import Base OBTypes OBModel OBSpec OBStep.
Import ListNotations.
Open Scope Z_scope.

(** [reachable m b mk c]: some valid history of requests, run on a new book,
    returns normally with book [b]; the reference exchange run on the same
    history ends in market [mk] with next virtual id [c] and the same replies. *)
Definition reachable (m : build) (b : book) (mk : market) (c : Z) : Prop :=
  exists id rs replies,
    valid_history ([], 0) rs /\
    run m (book_initialize id) rs = Ret (b, replies) /\
    sp_run ([], 0) rs = (mk, c, replies).

(** The orders of one side as stored: price -> queue of (id, quantity), front first. *)
Definition resting (b : book) (s : side) : list (Z * list (Z * Z)) :=
  map (fun pl => (fst pl, l_orders (snd pl))) (h_levels (side_half b s)).

(** The queue at one price ([] if there is no level). *)
Definition orders_at (b : book) (s : side) (p : Z) : list (Z * Z) :=
  match bt_get p (h_levels (side_half b s)) with Some l => l_orders l | None => [] end.

Definition qty_sum (q : list (Z * Z)) : Z := fold_right (fun x a => snd x + a) 0 q.

(** An order id rests somewhere on side [s]. *)
Definition rests (b : book) (s : side) (id : Z) : Prop :=
  exists p q, In (id, q) (orders_at b s p).

(** Total executed quantity of a report. *)
Definition executed_total (h : trade_history) : Z := fold_right (fun x a => snd x + a) 0 h.

(** A trades-through-limit price: what a buyer / seller with limit [lim] may get. *)
Definition within_limit (s : side) (lim p : Z) : Prop :=
  match s with Bid => p <= lim | Ask => lim <= p end.

(** [p] is a strictly better price than [q] for an incoming order of side [s]. *)
Definition better_for (s : side) (p q : Z) : Prop :=
  match s with Bid => p < q | Ask => q < p end.

(** The requests that go through the matching engine or only remove. *)
Definition no_blind_insert (r : request) : Prop :=
  match r with QAdd _ | QSnapshot _ _ | QDecompose _ _ => False | _ => True end.

(** The oldest orders of a queue, up to a total quantity [k]. *)
Fixpoint oldest (k : Z) (l : list (Z * Z)) : list (Z * Z) :=
  match l with
  | [] => []
  | (i, v) :: t => if k <=? 0 then [] else if v <=? k then (i, v) :: oldest (k - v) t else [(i, k)]
  end.

(** Quantity a snapshot asks for at a price (0 if not listed). *)
Definition wanted (rows : list level_snapshot) (p : Z) : Z :=
  match find (fun r => sn_price r =? p) rows with Some r => sn_quantity r | None => 0 end.

(** Orders of a decomposition that concern side [s] and price [p]. *)
Definition concerns (s : side) (p : Z) (o : order_enum) : bool :=
  match o with
  | OLimit l => side_eqb (lo_side l) s && (lo_price l =? p)
  | ORemove r => side_eqb (ra_side r) s && (ra_price r =? p)
  end.

(** Ids of the limit orders in a reply. *)
Definition reply_ids (a : reply) : list Z :=
  match a with
  | AOrders os => flat_map (fun o => match o with OLimit l => [lo_id l] | ORemove _ => [] end) os
  | _ => []
  end.

(** Submit a decomposed order to another book. *)
Definition submit (o : order_enum) : request :=
  match o with OLimit l => QAdd l | ORemove r => QRemove r end.

(** Ordered by priority for the taker: reported prices strictly worsen. *)
Inductive worsening (s : side) : list Z -> Prop :=
| w_nil : worsening s []
| w_cons p ps : (forall q, In q ps -> better_for s p q) -> worsening s ps -> worsening s (p :: ps).
