(** SpinModel.v -- trading-engine/src/spinqueue.rs: one datum shared between a
    producer and up to sixteen workers through one [AtomicU16] of status bits.

    The functions of the file are modelled over the value an atomic load
    returns; the atomic itself is modelled with the C11/Rust release-acquire
    semantics of a single location (a modification order, a coherence floor
    per thread, views carried by messages), so that a load may return a stale
    value and a store need not be placed last.  Accesses to the datum through
    the raw pointers are non-atomic; the machine tracks happens-before with
    one access counter per thread. *)
From Coq Require Import ZArith List Bool Lia.
From Verif Require Import Base.
Import ListNotations.
Open Scope Z_scope.

(** ** Pure part *)

(** spinqueue.rs 14-19: [WorkerId]; all three fields are public. *)
Record worker_id : Type := WorkerId { wid : Z; wid_bit : Z; wid_bit_neg : Z }.

(** spinqueue.rs 12: [ID_BOUND]. *)
Definition id_bound : Z := 15.

(** [!x] on u16. *)
Definition not16 (x : Z) : Z := 65535 - x.

(** [1u16 << k]: with overflow checks a shift of 16 or more panics, without
    them the amount is taken modulo 16. *)
Definition shl1_16 (m : build) (k : Z) : outcome Z :=
  if k <? 16 then Ret (Z.shiftl 1 k)
  else match m with Checked => Panic | Wrapping => Ret (Z.shiftl 1 (k mod 16)) end.

(** spinqueue.rs 22-33: [WorkerId::new].  The shift cannot overflow after the
    bound check. *)
Definition worker_new (m : build) (id : Z) : outcome (rresult worker_id) :=
  if id_bound <? id then Ret RErr
  else
    let! b := shl1_16 m id in
    Ret (ROk (WorkerId id b (not16 b))).

(** spinqueue.rs 14 ([derive(Default)]): [WorkerId::default()]. *)
Definition worker_default : worker_id := WorkerId 0 0 0.

(** spinqueue.rs 35-39: [work_done_mask]. *)
Definition work_done_mask (w : worker_id) : Z := wid_bit_neg w.

(** spinqueue.rs 41-48, the part fixed at construction: the buffer pointer
    ([None] = null; no function of the file ever stores to it) and
    [full_status]. *)
Record queue : Type := Queue { q_ptr : option unit; q_full : Z }.

(** spinqueue.rs 62-74: [Default for DataSpinQueue]: a null pointer. *)
Definition queue_default : queue := Queue None 0.

(** spinqueue.rs 84-90: the duplicate check, [worker_ids.contains]. *)
Fixpoint collect_ids (seen : list Z) (ws : list worker_id) : rresult (list Z) :=
  match ws with
  | [] => ROk seen
  | w :: r =>
      if existsb (Z.eqb (wid w)) seen then RErr
      else collect_ids (seen ++ [wid w]) r
  end.

(** spinqueue.rs 92: [fold(0, |acc, id| acc | (1 << id))]. *)
Fixpoint fold_full (m : build) (acc : Z) (ids : list Z) : outcome Z :=
  match ids with
  | [] => Ret acc
  | i :: r => let! b := shl1_16 m i in fold_full m (Z.lor acc b) r
  end.

(** spinqueue.rs 79-101: [DataSpinQueue::new]; the status starts at 0. *)
Definition queue_new (m : build) (ws : list worker_id) : outcome (rresult queue) :=
  match collect_ids [] ws with
  | RErr => Ret RErr
  | ROk ids => let! full := fold_full m 0 ids in Ret (ROk (Queue (Some tt) full))
  end.

(** spinqueue.rs 114-118: [ready_to_update], given the value loaded. *)
Definition ready_to_update (v : Z) : bool := v =? 0.

(** spinqueue.rs 105-112: [get_mut]: [None] = not ready, [Some p] = pointer. *)
Definition get_mut (q : queue) (v : Z) : option (option unit) :=
  if ready_to_update v then Some (q_ptr q) else None.

(** spinqueue.rs 120-123: [ready_to_work], given the value loaded. *)
Definition ready_to_work (v : Z) (w : worker_id) : bool := 0 <? Z.land v (wid_bit w).

(** spinqueue.rs 128-135: [get]. *)
Definition get (q : queue) (v : Z) (w : worker_id) : option (option unit) :=
  if ready_to_work v w then Some (q_ptr q) else None.

(** spinqueue.rs 137-142: the value [notify_all_workers] stores. *)
Definition notify_value (q : queue) : Z := q_full q.

(** spinqueue.rs 144-148: the value [work_done]'s [fetch_and] leaves. *)
Definition work_done_value (v : Z) (w : worker_id) : Z := Z.land v (work_done_mask w).

(** ** The machine *)

Definition tid := nat.

(** [view t] = how many accesses to the datum by thread [t] are known to have
    happened before. *)
Definition view := tid -> nat.
Definition vjoin (a b : view) : view := fun t => Nat.max (a t) (b t).
Definition upd {A} (f : tid -> A) (t : tid) (x : A) : tid -> A :=
  fun t' => if Nat.eqb t' t then x else f t'.

(** A message of the status atomic: its value, the view an acquiring reader
    obtains, and whether it was written by a read-modify-write (and then sits
    immediately after the message that was read). *)
Record msg : Type := Msg { m_val : Z; m_view : view; m_rmw : bool }.

(** What a thread does.  [T] is the datum. *)
Inductive event (T : Type) : Type :=
| EGetMut (got : bool)                 (* get_mut() returned Some / None *)
| ENotify                              (* notify_all_workers() *)
| EGet (w : worker_id) (got : bool)    (* get(w) returned Some / None *)
| EDone (w : worker_id)                (* work_done(w) *)
| EWrite (v : T)                       (* *ptr = v *)
| ERead (v : T).                       (* *ptr, yielding v *)
Arguments EGetMut {T} got.
Arguments ENotify {T}.
Arguments EGet {T} w got.
Arguments EDone {T} w.
Arguments EWrite {T} v.
Arguments ERead {T} v.

Record machine (T : Type) : Type := Machine {
  mo : list msg;          (* modification order of worker_status, oldest first *)
  floor : tid -> nat;     (* least position the thread may still read *)
  known : tid -> view;    (* accesses that happened before the thread's next step *)
  accesses : view;        (* accesses to the datum performed so far *)
  last_write : view;      (* of those, the number up to the thread's last write *)
  datum : T
}.
Arguments Machine {T}.
Arguments mo {T}. Arguments floor {T}. Arguments known {T}.
Arguments accesses {T}. Arguments last_write {T}. Arguments datum {T}.

(** The state right after [DataSpinQueue::new(data, ...)] (or [default()]),
    shared with threads spawned afterwards: [WorkerStatus::new(0)]. *)
Definition start {T} (d : T) : machine T :=
  Machine [Msg 0 (fun _ => O) false] (fun _ => O) (fun _ _ => O)
          (fun _ => O) (fun _ => O) d.

(** The message at position [i]. *)
Definition at_pos {T} (s : machine T) (i : nat) (x : msg) : Prop := nth_error (mo s) i = Some x.

(** No read-modify-write already claims the slot after position [i]. *)
Definition slot_free {T} (s : machine T) (i : nat) : Prop :=
  forall x, at_pos s (i + 1) x -> m_rmw x = false.

(** Insert a message at position [p] of the modification order; positions of
    the later messages, and so the floors that point at them, move up. *)
Definition insert_at (l : list msg) (p : nat) (x : msg) : list msg := firstn p l ++ x :: skipn p l.
Definition shift_floor (f : tid -> nat) (p : nat) : tid -> nat :=
  fun t => if (p <=? f t)%nat then S (f t) else f t.

(** One atomic load with [Ordering::Acquire] of message [i] by [t]. *)
Definition do_load {T} (s : machine T) (t : tid) (i : nat) (x : msg) : machine T :=
  Machine (mo s) (upd (floor s) t i) (upd (known s) t (vjoin (known s t) (m_view x)))
          (accesses s) (last_write s) (datum s).

(** One atomic store with [Ordering::Release], placed at position [p]. *)
Definition do_store {T} (s : machine T) (t : tid) (p : nat) (v : Z) : machine T :=
  Machine (insert_at (mo s) p (Msg v (known s t) false))
          (upd (shift_floor (floor s) p) t p)
          (known s) (accesses s) (last_write s) (datum s).

(** One read-modify-write with [Ordering::Release] reading message [i] ([x]):
    it continues the release sequence of [x], and acquires nothing. *)
Definition do_rmw {T} (s : machine T) (t : tid) (i : nat) (x : msg) (v : Z) : machine T :=
  Machine (insert_at (mo s) (i + 1) (Msg v (vjoin (known s t) (m_view x)) true))
          (upd (shift_floor (floor s) (i + 1)) t (i + 1)%nat)
          (known s) (accesses s) (last_write s) (datum s).

(** One access to the datum by [t]: program order makes it known to [t]. *)
Definition do_access {T} (s : machine T) (t : tid) (lw : view) (d : T) : machine T :=
  Machine (mo s) (floor s) (upd (known s) t (upd (known s t) t (S (accesses s t))))
          (upd (accesses s) t (S (accesses s t))) lw d.

(** The steps of the machine: any thread may call any function at any time.
    [get_mut]: spinqueue.rs 107-112; [get]: 130-135; [notify_all_workers]:
    139-142; [work_done]: 145-148. *)
Inductive step {T} (q : queue) : machine T -> tid -> event T -> machine T -> Prop :=
| step_get_mut s t i x got :
    (floor s t <= i)%nat -> at_pos s i x ->
    got = (match get_mut q (m_val x) with Some _ => true | None => false end) ->
    step q s t (EGetMut got) (do_load s t i x)
| step_get s t w i x got :
    (floor s t <= i)%nat -> at_pos s i x ->
    got = (match get q (m_val x) w with Some _ => true | None => false end) ->
    step q s t (EGet w got) (do_load s t i x)
| step_notify s t p :
    (floor s t < p)%nat -> (p <= length (mo s))%nat -> slot_free s (p - 1) ->
    step q s t ENotify (do_store s t p (notify_value q))
| step_done s t w i x :
    (floor s t <= i)%nat -> at_pos s i x -> slot_free s i ->
    step q s t (EDone w) (do_rmw s t i x (work_done_value (m_val x) w))
| step_write s t v :
    step q s t (EWrite v) (do_access s t (upd (last_write s) t (S (accesses s t))) v)
| step_read s t :
    step q s t (ERead (datum s)) (do_access s t (last_write s) (datum s)).

(** Executions: a trace of (thread, event) from [s] to [s']. *)
Inductive exec {T} (q : queue) : machine T -> list (tid * event T) -> machine T -> Prop :=
| exec_nil s : exec q s [] s
| exec_snoc s tr s1 t e s2 : exec q s tr s1 -> step q s1 t e s2 -> exec q s (tr ++ [(t, e)]) s2.

(** The next access is a data race: a write is unordered with some other
    thread's access, or a read with some other thread's write. *)
Definition races {T} (s : machine T) (t : tid) (e : event T) : Prop :=
  match e with
  | EWrite _ => exists t', t' <> t /\ (known s t t' < accesses s t')%nat
  | ERead _ => exists t', t' <> t /\ (known s t t' < last_write s t')%nat
  | _ => False
  end.
