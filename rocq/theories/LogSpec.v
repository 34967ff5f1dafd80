(** LogSpec.v -- what a user expects of the log: texts, files and histories,
    without reference to queue, buffer or clock. *)
From Coq Require Import ZArith List Bool Lia.
From Verif Require Import Base LogModel.
Import ListNotations.

(** The text a message adds to the log. *)
Definition text_of (x : lmsg) : text :=
  match x with MLazy s | MFlushing s | MStatic s => s | _ => [] end.
Definition log_text (l : list lmsg) : text := concat (map text_of l).

(** The files selected, in order. *)
Definition selected (x : lmsg) : list path := match x with MSetFile p _ => [p] | _ => [] end.
Definition files_of (l : list lmsg) : list path := concat (map selected l).

Definition is_close (x : lmsg) : bool := match x with MClose => true | _ => false end.
(** The messages before the first [Close]. *)
Fixpoint upto_close (l : list lmsg) : list lmsg :=
  match l with [] => [] | x :: r => if is_close x then [] else x :: upto_close r end.

(** The messages sent in a history, in order. *)
Fixpoint sents (h : list sys_event) : list lmsg :=
  match h with [] => [] | Sent x :: r => x :: sents r | Turn _ :: r => sents r end.
Definition before_close (h : list sys_event) : list lmsg := upto_close (sents h).

(** [l] begins with [p]. *)
Definition is_prefix {A} (p l : list A) : Prop := exists r, l = p ++ r.

(** Text [segs_i] appended to file [ps_i], one after the other. *)
Fixpoint laid_out (ps : list path) (segs : list text) : list appended :=
  match ps, segs with
  | p :: ps', s :: segs' => map (pair p) s ++ laid_out ps' segs'
  | _, _ => []
  end.
(** [out] holds the text [t], cut into one segment per file of [ps]. *)
Definition holds (out : list appended) (ps : list path) (t : text) : Prop :=
  exists segs, length segs = length ps /\ out = laid_out ps segs /\ concat segs = t.

(** The clock of the environment never runs backwards from [t0] on. *)
Fixpoint clock_from (t0 : Z) (h : list sys_event) : Prop :=
  match h with
  | [] => True
  | Sent _ :: r => clock_from t0 r
  | Turn e :: r => (t0 <= e_now e <= e_after e)%Z /\ clock_from (e_after e) r
  end.
(** Files can be opened and there is a core to run on. *)
Definition openable (x : lmsg) : Prop :=
  match x with MSetFile _ ok => ok = true | MSetCore ok => ok = true | _ => True end.
