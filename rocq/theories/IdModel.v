(** IdModel.v -- instrument identities (trading-engine/src/types/id/*.rs,
    types/venue.rs, types/enums.rs). *)
From Coq Require Import ZArith List Bool Lia.
From Verif Require Import Base KrxModel.
Import ListNotations.
Open Scope Z_scope.

(** types/venue.rs 3-11 *)
Inductive venue : Type := VUndefined | VCCP | VKRX | VKIS | VSI.

(** id/mod.rs 19-29: [Symbol]; an ISIN is 12 bytes, a ticker 32. *)
Inductive symbol : Type := SIsin (b : list Z) | STicker (b : list Z).

(** id/mod.rs 31-35: [IdData]. *)
Record id_data : Type := IdData { id_symbol : symbol; id_venue : venue }.

Definition bytes_eq_dec : forall a b : list Z, {a = b} + {a <> b} := list_eq_dec Z.eq_dec.
Definition id_eq_dec : forall a b : id_data, {a = b} + {a <> b}.
Proof. decide equality; [decide equality|decide equality; apply bytes_eq_dec]. Defined.

(** id/isin_code.rs 11-15, id/mod.rs 25-29 and 31, venue.rs 7: the derived
    and written defaults. *)
Definition default_id : id_data := IdData (SIsin (repeat 0 12)) VKRX.

(** The process-wide registry.  A leaked [Box] is a cell of the heap that is
    never written again; an address is its index. *)
Definition address := nat.
Record registry : Type := Registry { heap : list id_data; cache : list (id_data * address) }.

(** id/mod.rs 37-48: [lazy_static! ID_CACHE]: initialised at first use. *)
Definition registry_init : registry := Registry [default_id] [(default_id, O)].

Fixpoint cache_find (d : id_data) (c : list (id_data * address)) : option address :=
  match c with
  | [] => None
  | (k, a) :: r => if id_eq_dec d k then Some a else cache_find d r
  end.

(** id/mod.rs 78-82 and 91-94: lock; [entry(d).or_insert_with(Box::leak)].
    The whole body runs under the mutex. *)
Definition intern (d : id_data) (r : registry) : address * registry :=
  match cache_find d (cache r) with
  | Some a => (a, r)
  | None => let a := length (heap r) in
            (a, Registry (heap r ++ [d]) ((d, a) :: cache r))
  end.

(** The ways to obtain an [InstId]: [new] (90-95), a successful
    [deserialize] of [d] (73-84), [default] (67-71: the address of the default
    entry, looked up once; entries are never removed). *)
Inductive id_op : Type := OpNew (s : symbol) (v : venue) | OpDeserialize (d : id_data) | OpDefault.

Definition id_step (op : id_op) (r : registry) : outcome (address * registry) :=
  match op with
  | OpNew s v => Ret (intern (IdData s v) r)
  | OpDeserialize d => Ret (intern d r)
  | OpDefault => match cache_find default_id (cache r) with
                 | Some a => Ret (a, r)
                 | None => Panic   (* .unwrap() *)
                 end
  end.

(** A history of calls by any threads, in the order of their critical
    sections. *)
Fixpoint id_run (ops : list id_op) (r : registry) : outcome (list address * registry) :=
  match ops with
  | [] => Ret ([], r)
  | op :: rest =>
      let! (a, r1) := id_step op r in
      let! (l, r2) := id_run rest r1 in
      Ret (a :: l, r2)
  end.

(** id/mod.rs 97-107: [get_id], [get_id_clone]: follow the pointer. *)
Definition get_id (r : registry) (a : address) : option id_data := nth_error (heap r) a.
(** id/mod.rs 120-124: [eq] compares addresses. *)
Definition id_eqb (a b : address) : bool := Nat.eqb a b.

(** ** Codes *)

(** id/isin_code.rs 18-35 with utils/checkers.rs 1-17, on a byte slice. *)
Definition isin_of_bytes (b : list Z) : rresult (list Z) :=
  if existsb (Z.eqb 32) b || existsb (Z.eqb 9) b then RErr
  else if negb (forallb (fun c => c <? 128) b) then RErr
  else if negb (length b =? 12)%nat then RErr
  else ROk b.
(** id/isin_code.rs 6 ([derive(Deserialize)]): any array of twelve bytes. *)
Definition isin_deserialize (b : list Z) : rresult (list Z) := if (length b =? 12)%nat then ROk b else RErr.
(** id/isin_code.rs 11-15 *)
Definition isin_default : list Z := repeat 0 12.
(** id/isin_code.rs 37-40, 46-48: [as_str], [as_bytes]: the bytes. *)
Definition isin_bytes (i : list Z) : list Z := i.
(** id/isin_code.rs 51-78: the comparisons with text and bytes. *)
Definition isin_eq_bytes (i b : list Z) : bool := if bytes_eq_dec i b then true else false.

(** id/ticker.rs 31-40: [Ticker::new]: at most 32 bytes, padded with zeros. *)
Definition ticker_of_bytes (b : list Z) : rresult (list Z) :=
  if (32 <? length b)%nat then RErr
  else ROk (b ++ repeat 0 (32 - length b)).
(** id/ticker.rs 42-45: [as_str]: all 32 bytes. *)
Definition ticker_bytes (t : list Z) : list Z := t.
(** id/ticker.rs 48-52 *)
Definition ticker_eqb (a b : list Z) : bool := if bytes_eq_dec a b then true else false.

(** types/enums.rs 70-110: currencies and their codes. *)
Inductive currency : Type := KRW | USD | EUR | GBP | JPY | CNY | HKD.
Definition currency_str (c : currency) : list Z :=
  match c with
  | KRW => [75; 82; 87] | USD => [85; 83; 68] | EUR => [69; 85; 82] | GBP => [71; 66; 80]
  | JPY => [74; 80; 89] | CNY => [67; 78; 89] | HKD => [72; 75; 68]
  end.
Definition currency_isin_bytes (c : currency) : list Z :=
  match c with
  | KRW => [75; 82; 87; 48; 48; 48; 48; 48; 48; 48; 48; 48]
  | USD => [85; 83; 68; 48; 48; 48; 48; 48; 48; 48; 48; 48]
  | EUR => [69; 85; 82; 48; 48; 48; 48; 48; 48; 48; 48; 48]
  | GBP => [71; 66; 80; 48; 48; 48; 48; 48; 48; 48; 48; 48]
  | JPY => [74; 80; 89; 48; 48; 48; 48; 48; 48; 48; 48; 48]
  | CNY => [67; 78; 89; 48; 48; 48; 48; 48; 48; 48; 48; 48]
  | HKD => [72; 75; 68; 48; 48; 48; 48; 48; 48; 48; 48; 48]
  end.
(** types/enums.rs 107-111: [as_isin_code] ([expect]). *)
Definition currency_isin (c : currency) : outcome (list Z) :=
  match isin_of_bytes (currency_isin_bytes c) with ROk i => Ret i | RErr => Panic end.
