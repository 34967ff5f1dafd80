(** UdpModel.v -- the UDP client.
    Models /repo/trading-engine/src/communication/udp_client.rs.
    The socket is the queue of datagrams that have come for it (who sent
    each, and its bytes) and the list of those it has sent. What the system
    answers to a call is a parameter of the call. *)
From Coq Require Import ZArith List Bool.
From Verif Require Import KrxModel.
Import ListNotations.
Open Scope Z_scope.

(** A datagram: the other side's address (numbered) and the bytes. *)
Record datagram := Datagram { dg_peer : Z; dg_bytes : list Z }.
(** udp_client.rs 4-7, with the system's side of the socket. *)
Record udp_client := UdpClient { uc_address : Z; uc_inbox : list datagram; uc_sent : list datagram }.
Inductive io (A : Type) := Done (a : A) | Failed.
Arguments Done {A}.
Arguments Failed {A}.

(** udp_client.rs 10-23: [UdpClient::new]; [bound] tells if [bind] succeeded. *)
Definition client_new (bound : bool) (address : Z) : io udp_client :=
  if bound then Done (UdpClient address [] []) else Failed.

(** udp_client.rs 25-28: [send_message]; [accepted] tells if [send_to] did. *)
Definition send_message (accepted : bool) (c : udp_client) (server : Z) (message : list Z) : io unit * udp_client :=
  if accepted
  then (Done tt, UdpClient (uc_address c) (uc_inbox c) (uc_sent c ++ [Datagram server message]))
  else (Failed, c).

(** U+FFFD, as bytes. *)
Definition replacement : list Z := [239; 191; 189].
(** The second bytes that may follow a first one, as the standard library has
    them ([Utf8Chunks::next]). *)
Definition second3 (a b : Z) : bool :=
  if a =? 224 then within 160 b 191 else if a =? 237 then within 128 b 159 else cont b.
Definition second4 (a b : Z) : bool :=
  if a =? 240 then within 144 b 191 else if a =? 244 then within 128 b 143 else cont b.
(** udp_client.rs 33: [String::from_utf8_lossy]: a malformed sequence, as far as
    it could have begun a character, becomes one U+FFFD. *)
Fixpoint lossy (l : list Z) : list Z :=
  match l with
  | [] => []
  | a :: t =>
    if a <? 128 then a :: lossy t
    else if within 194 a 223 then
      match t with
      | b :: t' => if cont b then a :: b :: lossy t' else replacement ++ lossy t
      | [] => replacement
      end
    else if within 224 a 239 then
      match t with
      | b :: t' =>
        if second3 a b then
          match t' with
          | c :: t'' => if cont c then a :: b :: c :: lossy t'' else replacement ++ lossy t'
          | [] => replacement
          end
        else replacement ++ lossy t
      | [] => replacement
      end
    else if within 240 a 244 then
      match t with
      | b :: t' =>
        if second4 a b then
          match t' with
          | c :: t'' =>
            if cont c then
              match t'' with
              | d :: t3 => if cont d then a :: b :: c :: d :: lossy t3 else replacement ++ lossy t''
              | [] => replacement
              end
            else replacement ++ lossy t'
          | [] => replacement
          end
        else replacement ++ lossy t
      | [] => replacement
      end
    else replacement ++ lossy t
  end.

(** udp_client.rs 31: the buffer's size. *)
Definition buffer_size : nat := 1024.
(** udp_client.rs 30-35: [receive_response]. [None]: nothing has come, and the
    call waits; [broken]: [recv_from] fails. A datagram longer than the buffer
    loses what is over (as [recvfrom] has it); the peer is dropped ([_]). *)
Definition receive_response (broken : bool) (c : udp_client) : option (io (list Z) * udp_client) :=
  if broken then Some (Failed, c)
  else match uc_inbox c with
  | [] => None
  | m :: rest => Some (Done (lossy (firstn buffer_size (dg_bytes m))), UdpClient (uc_address c) rest (uc_sent c))
  end.
