(** UdpSpec.v -- what the UDP client is for, in the words of its user. *)
From Coq Require Import ZArith List Bool.
From Verif Require Import KrxSpec UdpModel.
Import ListNotations.
Open Scope Z_scope.

(** The bytes of the text made of these characters. *)
Definition text_of (cs : list Z) : list Z := concat (map encode cs).

(** What can happen to a client: a datagram comes, a message is sent, a response is asked for. *)
Inductive event :=
| Arrives (m : datagram)
| Sends (accepted : bool) (server : Z) (message : list Z)
| Receives (broken : bool).
(** The client after an event, and the response that it gave, if one was. *)
Definition happens (c : udp_client) (e : event) : udp_client * list (list Z) :=
  match e with
  | Arrives m => (UdpClient (uc_address c) (uc_inbox c ++ [m]) (uc_sent c), [])
  | Sends accepted server message => (snd (send_message accepted c server message), [])
  | Receives broken =>
    match receive_response broken c with
    | Some (Done r, c') => (c', [r])
    | Some (Failed, c') => (c', [])
    | None => (c, [])
    end
  end.
Fixpoint history (c : udp_client) (es : list event) : udp_client * list (list Z) :=
  match es with
  | [] => (c, [])
  | e :: rest => let '(c1, r) := happens c e in let '(c2, rs) := history c1 rest in (c2, r ++ rs)
  end.
(** The datagrams that came, and those whose sending succeeded, oldest first. *)
Fixpoint came (es : list event) : list datagram :=
  match es with [] => [] | Arrives m :: rest => m :: came rest | _ :: rest => came rest end.
Fixpoint went (es : list event) : list datagram :=
  match es with [] => [] | Sends true s m :: rest => Datagram s m :: went rest | _ :: rest => went rest end.
