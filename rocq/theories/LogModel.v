(** LogModel.v -- trading-engine/src/logger.rs: the logging thread, its
    channel, the message queue, the buffered file writer, and the callers.

    Texts are lists of bytes.  The crossbeam channel is an unbounded FIFO whose
    order is the order of the (linearised) sends of all threads.  Writing to an
    open file is assumed to succeed; opening may fail.  Clock readings and the
    console flag are supplied by the environment, one set per message. *)
From Coq Require Import ZArith List Bool Lia.
From Verif Require Import Base.
Import ListNotations.
Open Scope Z_scope.

Definition text := list Z.
Definition path := nat.

(** logger.rs 22-23. *)
Definition buffer_size_limit : Z := 2000000.
Definition flush_interval : Z := 2000000.

(** logger.rs 531-538: [LogMessage] (a lazy message is the text it evaluates
    to); [opened]: did [OpenOptions::open] succeed; [cores]: is there a core. *)
Inductive lmsg : Type :=
| MLazy (s : text)
| MFlushing (s : text)
| MStatic (s : text)
| MSetFile (p : path) (opened : bool)
| MSetCore (cores : bool)
| MClose.

(** What the environment supplies while one message is handled: the clock
    reading [timestamp], the reading after a flush, and [CONSOLE_REPORT]. *)
Record env : Type := Env { e_now : Z; e_after : Z; e_console : bool }.

(** [std::io::BufWriter] with its default capacity. *)
Definition bw_capacity : nat := Z.to_nat 8192.

(** A byte appended to a file. *)
Definition appended := (path * Z)%type.
Definition to_file (p : path) (s : text) : list appended := map (pair p) s.

(** [BufWriter::write_all] (std): copy if it fits strictly; otherwise flush if
    it does not fit, and write large texts directly.  Returns the new buffer
    and the bytes that reach the file. *)
Definition bw_write (p : path) (buf s : text) : text * list appended :=
  if (length s <? bw_capacity - length buf)%nat then (buf ++ s, [])
  else
    let (buf1, out1) :=
      if (bw_capacity - length buf <? length s)%nat then ([], to_file p buf) else (buf, []) in
    if (bw_capacity <=? length s)%nat then (buf1, out1 ++ to_file p s)
    else (buf1 ++ s, out1).

(** The logging thread between two messages (logger.rs 35-39). *)
Record logger : Type := Logger {
  l_queue : list text;                 (* message_queue *)
  l_writer : option (path * text);     (* writer: file and unflushed buffer *)
  l_last : Z                           (* last_flush_time *)
}.

(** logger.rs 50-63, 69-78, 86-97: write the joined queue, clear it, take the
    time; without a writer nothing happens. *)
Definition write_queue (l : logger) (e : env) : logger * list appended * list text :=
  match l_writer l with
  | Some (p, buf) =>
      let output := concat (l_queue l) in
      let (buf', out) := bw_write p buf output in
      (Logger [] (Some (p, buf')) (e_after e), out, if e_console e then [output] else [])
  | None => (l, [], [])
  end.

(** One turn of the loop (logger.rs 39-142): how it ends. *)
Inductive turn : Type :=
| Going (l : logger)
| Closed
| Died.

(** logger.rs 42-64 and 80-101: a text with the two flush conditions; the
    length compared is the number of queued messages plus the new length. *)
Definition handle_text (m : build) (l : logger) (e : env) (s : text)
    : turn * list appended * list text :=
  let buffer_size := Z.of_nat (length (l_queue l)) in
  let l1 := Logger (l_queue l ++ [s]) (l_writer l) (l_last l) in
  if buffer_size_limit <? buffer_size + Z.of_nat (length s) then
    let '(l2, out, con) := write_queue l1 e in (Going l2, out, con)
  else
    match usub m (e_now e) (l_last l) with
    | Ret d =>
        if flush_interval <? d then
          let '(l2, out, con) := write_queue l1 e in (Going l2, out, con)
        else (Going l1, [], [])
    | _ =>
        (* the thread unwinds; dropping the BufWriter writes its buffer *)
        (Died, match l_writer l with Some (p, buf) => to_file p buf | None => [] end, [])
    end.

(** logger.rs 41-142: the [match]. *)
Definition handle (m : build) (l : logger) (e : env) (x : lmsg)
    : turn * list appended * list text :=
  match x with
  | MLazy s => handle_text m l e s
  | MStatic s => handle_text m l e s
  | MFlushing s =>
      let '(l2, out, con) := write_queue (Logger (l_queue l ++ [s]) (l_writer l) (l_last l)) e in
      (Going l2, out, con)
  | MSetFile p opened =>
      let out := match l_writer l with Some (p0, buf) => to_file p0 buf | None => [] end in
      if opened then (Going (Logger (l_queue l) (Some (p, [])) (l_last l)), out, [])
      else (Died, out, [])
  | MSetCore cores =>
      if cores then (Going l, [], [])
      else (Died, match l_writer l with Some (p, buf) => to_file p buf | None => [] end, [])
  | MClose =>
      match l_writer l with
      | Some (p, buf) =>
          let (buf', out) := bw_write p buf (concat (l_queue l)) in
          (Closed, out ++ to_file p buf', [])
      | None => (Closed, [], [])
      end
  end.

(** ** The whole system *)

Inductive thread_state : Type := Alive (l : logger) | Finished | Dead.

Record system : Type := System {
  chan : list lmsg;            (* sent, not yet received *)
  thread : thread_state;
  files : list appended;       (* every byte appended to a file, oldest first *)
  console : list text
}.

(** logger.rs 32-38: right after the first use of [LOG_SENDER], at time [t]. *)
Definition sys_start (t : Z) : system := System [] (Alive (Logger [] None t)) [] [].

(** A send from any thread ([try_send], [send]): accepted while the receiver
    lives, refused afterwards.  The receiver is dropped when the thread ends. *)
Definition send (s : system) (x : lmsg) : bool * system :=
  match thread s with
  | Alive _ => (true, System (chan s ++ [x]) (thread s) (files s) (console s))
  | _ => (false, s)
  end.

(** logger.rs 307-365 and 401-461: [log_fn_json!], [flushing_log_fn_json!]: nothing unless the level
    passes; then [try_send(..).unwrap()]. *)
Definition level_passes (level max : Z) : bool := level <=? max.
Definition log_call (s : system) (level max : Z) (x : lmsg) : outcome (bool * system) :=
  if level_passes level max then
    match send s x with
    | (true, s') => Ret (true, s')
    | (false, _) => Panic
    end
  else Ret (false, s).

(** One turn of the logging thread, if a message is there. *)
Definition work (m : build) (s : system) (e : env) : system :=
  match thread s, chan s with
  | Alive l, x :: r =>
      let '(t, out, con) := handle m l e x in
      match t with
      | Going l' => System r (Alive l') (files s ++ out) (console s ++ con)
      | Closed => System [] Finished (files s ++ out) (console s ++ con)
      | Died => System [] Dead (files s ++ out) (console s ++ con)
      end
  | _, _ => s
  end.

(** What can happen: some thread sends a message (whatever its level test
    said), or the logging thread takes a turn. *)
Inductive sys_event : Type := Sent (x : lmsg) | Turn (e : env).

Definition sys_step (m : build) (s : system) (ev : sys_event) : system :=
  match ev with
  | Sent x => snd (send s x)
  | Turn e => work m s e
  end.

Fixpoint sys_run (m : build) (s : system) (h : list sys_event) : system :=
  match h with [] => s | ev :: r => sys_run m (sys_step m s ev) r end.

(** logger.rs 176-201: [as_usize], [from_usize]. *)
Inductive log_level : Type := LNil | LError | LWarn | LInfo | LDebug | LTrace.
Definition as_usize (l : log_level) : Z :=
  match l with LNil => 0 | LError => 1 | LWarn => 2 | LInfo => 3 | LDebug => 4 | LTrace => 5 end.
Definition from_usize (n : Z) : rresult log_level :=
  if n =? 0 then ROk LNil else if n =? 1 then ROk LError else if n =? 2 then ROk LWarn
  else if n =? 3 then ROk LInfo else if n =? 4 then ROk LDebug else if n =? 5 then ROk LTrace
  else RErr.
