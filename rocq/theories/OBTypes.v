(** OBTypes.v -- the request and reply records of the order-book API.
    Shared by the model (OBModel.v) and by the reference exchange (OBSpec.v),
    which share nothing else. *)
From Coq Require Import ZArith List.
Import ListNotations.
Open Scope Z_scope.

(** types/enums.rs 13-17 *)
Inductive side : Type := Ask | Bid.

Definition side_eqb (a b : side) : bool :=
  match a, b with Ask, Ask | Bid, Bid => true | _, _ => false end.

Definition opposite (s : side) : side := match s with Ask => Bid | Bid => Ask end.

(** data/order.rs 12-17 *)
Record limit_order := LimitOrder {
  lo_price : Z; lo_quantity : Z; lo_side : side; lo_id : Z }.

(** data/order.rs 36-40 *)
Record market_order := MarketOrder { mo_quantity : Z; mo_side : side; mo_id : Z }.

(** data/order.rs 66-70 *)
Record modify_order := ModifyOrder { mod_id : Z; mod_price : Z; mod_quantity : Z }.

(** data/order.rs 87-91 *)
Record remove_any := RemoveAny { ra_price : Z; ra_quantity : Z; ra_side : side }.

(** data/order.rs 108-116: the two constructors decomposition can produce. *)
Inductive order_enum : Type :=
| OLimit (o : limit_order)
| ORemove (o : remove_any).

(** types/base.rs 134-140 *)
Record level_snapshot := LevelSnapshot {
  sn_count : option Z; sn_price : Z; sn_quantity : Z; sn_lp : option Z }.

(** types/base.rs 44-47: TradeHistory is the list of (price, quantity) pushed. *)
Definition trade_history : Type := list (Z * Z).
