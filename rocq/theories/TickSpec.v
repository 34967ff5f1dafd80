(** TickSpec.v -- what the tick features are supposed to be, on the integers of
    the order book. *)
From Coq Require Import ZArith Reals List Bool.
Import ListNotations.
Open Scope Z_scope.

(** Order flow at one level between two book states (Cont, Kukanov, Stoikov):
    what is there now unless the price retreated, minus what was there unless
    the price advanced.  Bids advance upwards, asks downwards. *)
Definition bid_flow (p0 q0 p1 q1 : Z) : Z :=
  (if p0 <=? p1 then q1 else 0) - (if p1 <=? p0 then q0 else 0).
Definition ask_flow (p0 q0 p1 q1 : Z) : Z :=
  (if p1 <=? p0 then q1 else 0) - (if p0 <=? p1 then q0 else 0).
(** A level: price and quantity. *)
Definition order_flow_imbalance (bid0 bid1 ask0 ask1 : Z * Z) : Z :=
  bid_flow (fst bid0) (snd bid0) (fst bid1) (snd bid1)
  - ask_flow (fst ask0) (snd ask0) (fst ask1) (snd ask1).

(** The decimal number a book integer stands for. *)
Definition decimal (k v : Z) : R := (IZR v / IZR (10 ^ k))%R.

(** Volume weighted average price of a list of levels with [k] decimals. *)
Definition volume (l : list (Z * Z)) : Z := fold_right (fun x acc => snd x + acc) 0 l.
Definition turnover (l : list (Z * Z)) : Z := fold_right (fun x acc => fst x * snd x + acc) 0 l.
Definition average_price (k : Z) (l : list (Z * Z)) : R :=
  (decimal k (turnover l) / IZR (volume l))%R.

(** Exponential moving average with decay [w] per second: every update decays
    by the time since the previous one. *)
Fixpoint ewma (decay : Z -> R) (prev : Z) (v : R) (l : list (Z * R)) : R :=
  match l with
  | [] => v
  | (t, x) :: r => ewma decay t (decay (t - prev)%Z * v + (1 - decay (t - prev)%Z) * x)%R r
  end.
