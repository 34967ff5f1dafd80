(** MiscModel.v -- small parts: the interfaces of KRX messages, lazy strings, enums and
    balances, pairs of currencies. *)
From Coq Require Import ZArith Ascii String.
From Coq Require Import List Bool.
From Verif Require Import Base KrxModel QMoneyModel.
Import ListNotations.
Open Scope Z_scope.

(** ** trading-engine/src/data/krx/interface_map.rs 5-95: KRX_TR_CODE_MAP, in the order of
    the insertions.  Simplification: strings for byte slices *)
Definition tr_groups : list (list string * string) := [
  (["B601B"; "B601K"], "IFMSRPD0023");
  (["A301B"; "A301M"; "A301K"], "IFMSRPD0027");
  (["G701B"; "G701K"], "IFMSRPD0029");
  (["B601S"; "B601Q"; "B601X"], "IFMSRPD0002");
  (["B702S"; "B703S"; "B704S"], "IFMSRPD0003");
  (["A301S"; "A302S"; "A303S"; "A304S"; "A301Q"; "A301X"], "IFMSRPD0004");
  (["A301F"; "A302F"; "A303F"; "A304F"; "A305F"; "A306F"; "A307F"; "A308F"; "A309F"; "A310F"; "A311F"; "A312F"; "A313F"; "A315F"; "A316F"; "A314F"], "IFMSRPD0036");
  (["B601F"; "B602F"; "B603F"; "B606F"; "B607F"; "B608F"; "B609F"; "B610F"; "B611F"; "B612F"; "B613F"; "B615F"; "B616F"; "B614F"], "IFMSRPD0034");
  (["B604F"; "B605F"], "IFMSRPD0035");
  (["G701F"; "G702F"; "G703F"; "G706F"; "G707F"; "G708F"; "G709F"; "G710F"; "G711F"; "G712F"; "G713F"; "G715F"; "G716F"], "IFMSRPD0037");
  (["G704F"; "G705F"], "IFMSRPD0038")
  ]%string.
(** the map: [insert] replaces *)
Definition tr_map : string -> option string :=
  fold_left (fun m g => fold_left (fun m c => fun x => if String.eqb x c then Some (snd g) else m x) (fst g) m) tr_groups (fun _ => None).

(** ** trading-engine/src/utils/lazy_string.rs 5-30: a LazyString that several threads may
    read.  The cell is once_cell::sync::OnceCell: one thread at a time runs the initializer,
    the others wait for it; if it panics, the cell is empty again.  A thread reads by deref
    (24-30), which [serialize] does too (32-40).  Simplification: the initializer does not
    read the cell itself *)
Inductive cell : Type := Empty | Busy (t : nat) | Full (s : string).
Inductive reader : Type := Idle | Waiting | Making | Holds (s : string) | Dead.
Inductive event : Type := Makes (t : nat) | Made (t : nat) (s : string) | Fails (t : nat) | Reads (t : nat) (s : string).
Record lazy : Type := Lazy { lz_cell : cell; lz_reader : nat -> reader }.
Definition set_reader (f : nat -> reader) (t : nat) (r : reader) : nat -> reader := fun u => if Nat.eqb u t then r else f u.
(** [gives s]: the initializer may return [s] *)
Inductive lazy_step (gives : string -> Prop) : lazy -> list event -> lazy -> Prop :=
| lazy_read : forall f t s, f t = Idle \/ f t = Waiting -> lazy_step gives (Lazy (Full s) f) [Reads t s] (Lazy (Full s) (set_reader f t (Holds s)))
| lazy_begin : forall f t, f t = Idle \/ f t = Waiting -> lazy_step gives (Lazy Empty f) [Makes t] (Lazy (Busy t) (set_reader f t Making))
| lazy_wait : forall f t u, f t = Idle -> lazy_step gives (Lazy (Busy u) f) [] (Lazy (Busy u) (set_reader f t Waiting))
| lazy_made : forall c f t s, f t = Making -> gives s -> lazy_step gives (Lazy c f) [Made t s; Reads t s] (Lazy (Full s) (set_reader f t (Holds s)))
| lazy_fails : forall c f t, f t = Making -> lazy_step gives (Lazy c f) [Fails t] (Lazy Empty (set_reader f t Dead))
| lazy_again : forall c f t s, f t = Holds s -> lazy_step gives (Lazy c f) [] (Lazy c (set_reader f t Idle)).
(** lazy_string.rs 12-19: new *)
Definition lazy_new : lazy := Lazy Empty (fun _ => Idle).
Inductive lazy_run (gives : string -> Prop) : lazy -> list event -> Prop :=
| lazy_start : lazy_run gives lazy_new []
| lazy_next : forall l es es' l', lazy_run gives l es -> lazy_step gives l es' l' -> lazy_run gives l' (es ++ es').
(** 42-50: deserialize: a new one, whose initializer clones the string *)
Definition deserialized (s : string) : string -> Prop := fun x => x = s.

(** ** trading-engine/src/types/enums.rs 13-64: the discriminants, and from_u8 *)
Inductive order_side : Type := SideAsk | SideBid.
Inductive data_type : Type := L1 | L2 | L3.
Inductive trade_type : Type := TradeUndefined | TradeSell | TradeBuy.
Definition side_u8 (x : order_side) : Z := match x with SideAsk => 1 | SideBid => 2 end.
Definition side_of_u8 (v : Z) : rresult order_side := match v with 1 => ROk SideAsk | 2 => ROk SideBid | _ => RErr end.
Definition data_u8 (x : data_type) : Z := match x with L1 => 1 | L2 => 2 | L3 => 3 end.
Definition data_of_u8 (v : Z) : rresult data_type := match v with 1 => ROk L1 | 2 => ROk L2 | 3 => ROk L3 | _ => RErr end.
Definition trade_u8 (x : trade_type) : Z := match x with TradeUndefined => 0 | TradeSell => 1 | TradeBuy => 2 end.
Definition trade_of_u8 (v : Z) : rresult trade_type := match v with 0 => ROk TradeUndefined | 1 => ROk TradeSell | 2 => ROk TradeBuy | _ => RErr end.
(** conductor/oms/account.rs 10-18 *)
Definition opposite (x : order_side) : order_side := match x with SideBid => SideAsk | SideAsk => SideBid end.
(** account.rs 20-28 *)
Record balance : Type := Balance { ba_side : order_side; ba_outstanding : Z; ba_pending : Z; ba_liquidatable : Z; ba_upper : option Z; ba_lower : option Z }.
(** account.rs 31-40; 42-45; 47-50; 52-56; 58-61 *)
Definition initialize (s : order_side) (outstanding : Z) : balance := Balance s outstanding 0 outstanding None None.
Definition without_short_sell (b : balance) : balance := Balance (ba_side b) (ba_outstanding b) (ba_pending b) (ba_liquidatable b) (ba_upper b) (Some 0).
Definition with_upper_bound (b : balance) (x : Z) : balance := Balance (ba_side b) (ba_outstanding b) (ba_pending b) (ba_liquidatable b) (Some x) (ba_lower b).
Definition with_lower_bound (b : balance) (x : Z) : balance := Balance (ba_side b) (ba_outstanding b) (ba_pending b) (ba_liquidatable b) (ba_upper b) (Some x).
Definition balance_is_empty (b : balance) : bool := ba_outstanding b =? 0.

(** ** quantlib/src/utils/make_fx.rs 3-24: currencies_to_fx_codes *)
Definition fx_code_eqb (a b : fx_code) : bool := ccy_eqb (fx_one a) (fx_one b) && ccy_eqb (fx_two a) (fx_two b).
Definition pairs_of (cs : list currency) : list fx_code := flat_map (fun a => flat_map (fun b => if negb (ccy_eqb a b) then [FxCode a b] else []) cs) cs.
Definition include (codes result : list fx_code) : list fx_code := fold_left (fun r c => if negb (existsb (fx_code_eqb c) r) then r ++ [c] else r) codes result.
Definition currencies_to_fx_codes (cs : list currency) (must_include : option (list fx_code)) : list fx_code :=
  match must_include with Some codes => include codes (pairs_of cs) | None => pairs_of cs end.
