(** The framing of the test channel and of the link layer sockets.

    Models model/setup/test_channel_transport.cc and
    model/devices/link_layer_socket_device.cc. *)
From Verif Require Import Prelude.
Open Scope N_scope.

(** ** Test channel *)

(** A non-blocking socket: bytes that have arrived, and the chunks that arrive
    later, one before each read. PosixAsyncSocket::Recv (net/posix/
    posix_async_socket.cc 67-83) returns what is there, up to the size asked for;
    a closed socket returns nothing. *)
Record socket := { queue : list N; later : list (list N); closed : bool }.

Definition recv (s : socket) (n : N) : list N * socket :=
  if closed s then ([], s)
  else
    let q := queue s ++ hd [] (later s) in
    (firstn (N.to_nat n) q, {| queue := skipn (N.to_nat n) q; later := tl (later s); closed := false |}).

Definition close (s : socket) : socket := {| queue := queue s; later := later s; closed := true |}.

(** Reading a byte into a variable initialised to 0. *)
Definition recv_byte (s : socket) : N * socket := let '(b, s1) := recv s 1 in (hd 0 b, s1).

(** Reading into a vector resized, hence filled with zeros. *)
Definition recv_vector (s : socket) (n : N) : list N * socket :=
  let '(b, s1) := recv s n in (b ++ repeat 0 (N.to_nat n - length b), s1).

(** "CLOSE_TEST_CHANNEL" *)
Definition close_command : list N :=
  [67; 76; 79; 83; 69; 95; 84; 69; 83; 84; 95; 67; 72; 65; 78; 78; 69; 76].

Inductive command_result :=
| RClosed                                             (* unwatch() and Close() *)
| RCommand (name : list N) (args : list (list N)).    (* command_handler_(name, args) *)

Fixpoint recv_args (n : nat) (s : socket) : list (list N) * socket :=
  match n with
  | O => ([], s)
  | S n =>
      let '(size, s1) := recv_byte s in
      let '(arg, s2) := recv_vector s1 size in
      let '(args, s3) := recv_args n s2 in (arg :: args, s3)
  end.

(** TestChannelTransport::OnCommandReady (test_channel_transport.cc 47-93).
    Failed reads are only logged, except that the first one closes the socket
    without returning. *)
Definition on_command_ready (s : socket) : command_result * socket :=
  let '(b, s1) := recv s 1 in
  let s1 := match b with [] => close s1 | _ => s1 end in
  let '(name, s2) := recv_vector s1 (hd 0 b) in
  if list_eqb name close_command || list_eqb name [] then (RClosed, close s2)
  else
    let '(n, s3) := recv_byte s2 in
    let '(args, s4) := recv_args (N.to_nat n) s3 in
    (RCommand name args, s4).

(** The little endian form of a 32 bit number. *)
Definition le32 (v : N) : list N := [v mod 256; v / 256 mod 256; v / 65536 mod 256; v / 16777216 mod 256].
Definition read32 (b : list N) : N :=
  nth 0 b 0 + 256 * nth 1 b 0 + 65536 * nth 2 b 0 + 16777216 * nth 3 b 0.

(** What PosixAsyncSocket::Send reports: the number of bytes written, or -1. *)
Inductive send_report := Written (n : N) | BadFd | OtherError.

Inductive response_result :=
| RSent (bytes : list N)
| RDropped
| RAbort.                          (* ASSERT_LOG fails *)

(** TestChannelTransport::SendResponse (95-114) *)
Definition send_response (w1 w2 : send_report) (response : list N) : response_result :=
  let size := N.min (lenN response) 65535 in
  match w1 with
  | BadFd => RDropped
  | Written 4 =>
      match w2 with
      | Written n => if n =? size then RSent (le32 size ++ firstn (N.to_nat size) response) else RAbort
      | _ => RAbort
      end
  | _ => RAbort
  end.

(** ** Link layer socket *)

(** LinkLayerSocketDevice (link_layer_socket_device.h 55-63) *)
Record lls := {
  receiving_size : bool; bytes_left : N; offset : N; size_bytes : list N; received : list N }.
Definition lls_init : lls :=
  {| receiving_size := true; bytes_left := 4; offset := 0; size_bytes := [0; 0; 0; 0]; received := [] |}.

(** Recv(n) when [k] bytes are available of the stream [s] the peer sends: at
    most [n] bytes. *)
Definition avail (s : list N) (k n : N) : list N := firstn (N.to_nat (N.min k n)) s.

(** Store bytes at an offset; [None] when they do not fit (undefined behaviour). *)
Definition store (buf : list N) (o : N) (b : list N) : option (list N) :=
  if o + lenN b <=? lenN buf then
    Some (firstn (N.to_nat o) buf ++ b ++ skipn (N.to_nat (o + lenN b)) buf)
  else None.

Inductive tick_result :=
| TOk (s : lls) (rest : list N) (out : option (list N))   (* packet given to SendLinkLayerPacket *)
| TClosed                                                 (* Recv returned 0: Close() *)
| TUndefined.

(** The part of Tick (43-87) after the size is known (67-86), with [k] bytes available. *)
Definition tick_payload (s : lls) (rest : list N) (k : N) : tick_result :=
  let b := avail rest k (bytes_left s) in
  match b with
  | [] => if bytes_left s =? 0 then TClosed      (* read of 0 bytes: returns 0 without EAGAIN *)
          else TOk s rest None                   (* EAGAIN *)
  | _ =>
      let rest1 := skipn (length b) rest in
      match store (received s) (offset s) b with
      | None => TUndefined
      | Some r =>
          if lenN b <? bytes_left s then
            TOk {| receiving_size := false; bytes_left := bytes_left s - lenN b; offset := offset s + lenN b;
                   size_bytes := size_bytes s; received := r |} rest1 None
          else
            TOk {| receiving_size := true; bytes_left := 4; offset := 0;
                   size_bytes := size_bytes s; received := r |} rest1 (Some r)
      end
  end.

(** LinkLayerSocketDevice::Tick (43-87), with [k1] and [k2] bytes available to
    the two reads. End of file and read errors are left out. *)
Definition tick (s : lls) (rest : list N) (k1 k2 : N) : tick_result :=
  if receiving_size s then
    let b := avail rest k1 4 in
    match b with
    | [] => TOk s rest None
    | _ =>
        let rest1 := skipn (length b) rest in
        match store (size_bytes s) (offset s) b with
        | None => TUndefined
        | Some sb =>
            if lenN b <? bytes_left s then
              TOk {| receiving_size := true; bytes_left := bytes_left s - lenN b; offset := offset s + lenN b;
                     size_bytes := sb; received := received s |} rest1 None
            else
              let n := read32 sb in
              tick_payload {| receiving_size := false; bytes_left := n; offset := 0; size_bytes := sb;
                              received := repeat 0 (N.to_nat n) |} rest1 k2
        end
    end
  else tick_payload s rest k2.

(** Ticks with given amounts available: the packets received, and the final
    state; [None] if the socket was closed or the behaviour is undefined. *)
Fixpoint ticks (s : lls) (rest : list N) (ks : list (N * N)) : option (list (list N) * lls * list N) :=
  match ks with
  | [] => Some ([], s, rest)
  | (k1, k2) :: ks =>
      match tick s rest k1 k2 with
      | TOk s1 rest1 out =>
          match ticks s1 rest1 ks with
          | Some (ps, s2, rest2) => Some (match out with Some p => p :: ps | None => ps end, s2, rest2)
          | None => None
          end
      | _ => None
      end
  end.

(** ReceiveLinkLayerPacket (96-105), when the socket accepts all the bytes. *)
Definition send_packet (p : list N) : list N := le32 (lenN p) ++ p.
