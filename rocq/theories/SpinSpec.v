(** SpinSpec.v -- the usage contract of the spin queue and what a user expects
    of it, as predicates over traces of calls; nothing here mentions how the
    queue stores its status. *)
From Coq Require Import ZArith List Bool Lia.
From Verif Require Import Base SpinModel.
Import ListNotations.
Open Scope Z_scope.

Section SpinSpec.
Context {T : Type}.

(** A call history: who did what, oldest first. *)
Definition history := list (tid * event T).

(** Who plays which part: one producer, and for each other thread the worker
    identity it was given (if any). *)
Record cast : Type := Cast { producer : tid; identity : tid -> option worker_id }.

(** A proper cast: identities come from [WorkerId::new], no identity is given
    to two threads, the producer is not a worker. *)
Definition proper_cast (c : cast) : Prop :=
  identity c (producer c) = None /\
  (forall t w, identity c t = Some w ->
     exists m id, 0 <= id /\ worker_new m id = Ret (ROk w)) /\
  (forall t1 t2 w1 w2, identity c t1 = Some w1 -> identity c t2 = Some w2 ->
     wid w1 = wid w2 -> t1 = t2).

(** What one thread did. *)
Definition acts (t : tid) (h : history) : list (event T) :=
  map snd (filter (fun te => Nat.eqb (fst te) t) h).

(** The producer's contract: touch the datum only after a [get_mut] that
    answered [Some], and end that section with one [notify_all_workers]. *)
Inductive producer_ok : bool -> list (event T) -> Prop :=
| pok_nil b : producer_ok b []
| pok_none l : producer_ok false l -> producer_ok false (EGetMut false :: l)
| pok_some l : producer_ok true l -> producer_ok false (EGetMut true :: l)
| pok_write v l : producer_ok true l -> producer_ok true (EWrite v :: l)
| pok_read v l : producer_ok true l -> producer_ok true (ERead v :: l)
| pok_notify l : producer_ok false l -> producer_ok true (ENotify :: l).

(** A worker's contract: read the datum only after a [get] with its own
    identity that answered [Some], and end that section with one
    [work_done] with its own identity. *)
Inductive worker_ok (w : worker_id) : bool -> list (event T) -> Prop :=
| wok_nil b : worker_ok w b []
| wok_none l : worker_ok w false l -> worker_ok w false (EGet w false :: l)
| wok_some l : worker_ok w true l -> worker_ok w false (EGet w true :: l)
| wok_read v l : worker_ok w true l -> worker_ok w true (ERead v :: l)
| wok_done l : worker_ok w false l -> worker_ok w true (EDone w :: l).

(** A history keeps the contract: every thread keeps the one of its part, and
    threads with no part do nothing. *)
Definition contract (c : cast) (h : history) : Prop :=
  producer_ok false (acts (producer c) h) /\
  forall t, t <> producer c ->
    match identity c t with
    | Some w => worker_ok w false (acts t h)
    | None => acts t h = []
    end.

(** Counting calls. *)
Definition is_notify (e : event T) : bool := match e with ENotify => true | _ => false end.
Definition is_take (e : event T) : bool := match e with EGet _ true => true | _ => false end.
Definition is_done (e : event T) : bool := match e with EDone _ => true | _ => false end.
Definition count (f : event T -> bool) (l : list (event T)) : nat := length (filter f l).

(** How often the producer has published, and how often [t] has taken an item
    and finished with one. *)
Definition publications (c : cast) (h : history) : nat := count is_notify (acts (producer c) h).
Definition taken (t : tid) (h : history) : nat := count is_take (acts t h).
Definition finished (t : tid) (h : history) : nat := count is_done (acts t h).

(** The value of the datum after a history, starting from [d]. *)
Fixpoint value_after (d : T) (h : history) : T :=
  match h with
  | [] => d
  | (_, EWrite v) :: r => value_after v r
  | _ :: r => value_after d r
  end.

(** The items published, oldest first: the value of the datum at each
    notification. *)
Fixpoint published (d : T) (h : history) : list T :=
  match h with
  | [] => []
  | (_, EWrite v) :: r => published v r
  | (_, ENotify) :: r => d :: published d r
  | _ :: r => published d r
  end.

End SpinSpec.
Arguments history : clear implicits.
