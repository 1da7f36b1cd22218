(** Property theorems C21, C22 and C42: test channel and link layer sockets. *)
From Verif Require Import Prelude TestChannel TestChannelSpec TestChannelProofs.
Open Scope N_scope.

(** C21: commands whose bytes have arrived are decoded as sent, one per call,
    and nothing of what follows is lost, however the rest arrives. *)
Theorem C21_commands_decoded_partial :
  forall cmds q l, Forall (fun c => good_command (fst c) (snd c)) cmds ->
  exists s', serve (length cmds)
      {| queue := flat_map (fun c => wire_command (fst c) (snd c)) cmds ++ q; later := l; closed := false |}
    = (map (fun c => RCommand (fst c) (snd c)) cmds, s') /\ unread s' = q ++ concat l.
Proof. exact commands_decoded. Qed.
Print Assumptions C21_commands_decoded_partial.

(** C21: a command that arrives in pieces may be decoded as something else. *)
Theorem C21_split_command_refuted :
  exists name args s, good_command name args /\ closed s = false /\
  unread s = wire_command name args /\ fst (on_command_ready s) <> RCommand name args.
Proof. exact split_command. Qed.
Print Assumptions C21_split_command_refuted.

(** C42: a response of at most 65535 bytes is read back by the client, followed
    by whatever comes next. *)
Theorem C42_response_read_back :
  forall r rest, lenN r <= 65535 ->
  exists b, send_response (Written 4) (Written (lenN r)) r = RSent b /\ read_response (b ++ rest) = Some (r, rest).
Proof. exact response_complete. Qed.
Print Assumptions C42_response_read_back.

(** C42: a longer response is cut, and the stream stays in step. *)
Theorem C42_long_response_cut :
  forall r, 65535 < lenN r ->
  exists b, send_response (Written 4) (Written 65535) r = RSent b /\
  (forall rest, read_response (b ++ rest) = Some (firstn (N.to_nat 65535) r, rest)) /\
  firstn (N.to_nat 65535) r <> r.
Proof. exact response_truncated. Qed.
Print Assumptions C42_long_response_cut.

(** C42: the process aborts exactly when a write is short or fails, unless the
    first one fails because the descriptor is closed. *)
Theorem C42_response_abort_exact :
  forall w1 w2 r, send_response w1 w2 r = RAbort <->
  w1 <> BadFd /\ ~ (w1 = Written 4 /\ w2 = Written (N.min (lenN r) 65535)).
Proof. exact response_aborts. Qed.
Print Assumptions C42_response_abort_exact.

(** C22: whatever the read sizes, as long as no read overflows the header
    buffer, the packets received are a prefix of those sent, and all of them
    once the stream is consumed. *)
Theorem C22_socket_lossless_partial :
  forall ps ks out s' rest', Forall sendable ps ->
  ticks lls_init (flat_map send_packet ps) ks = Some (out, s', rest') ->
  (exists ps', ps = out ++ ps') /\ (rest' = [] -> out = ps).
Proof. exact socket_lossless. Qed.
Print Assumptions C22_socket_lossless_partial.

(** C22: if headers are never split, every schedule of reads works, and every
    packet is received after enough ticks. *)
Theorem C22_socket_whole_headers_partial :
  forall ps ks, Forall sendable ps -> Forall whole_header ks ->
  exists out s' rest', ticks lls_init (flat_map send_packet ps) ks = Some (out, s', rest') /\
    (exists ps', ps = out ++ ps') /\
    (Forall (fun k => 0 < fst k /\ 0 < snd k) ks -> (length (flat_map send_packet ps) <= length ks)%nat -> out = ps).
Proof. exact socket_whole_headers. Qed.
Print Assumptions C22_socket_whole_headers_partial.

(** C22: the only way to fail: a read that continues a header gets more bytes
    than the header needs, and they are written past the buffer. *)
Theorem C22_socket_overflow_exact :
  forall ps ks out s rest k1 k2, Forall sendable ps ->
  ticks lls_init (flat_map send_packet ps) ks = Some (out, s, rest) ->
  tick s rest k1 k2 <> TClosed /\
  (tick s rest k1 k2 = TUndefined <-> receiving_size s = true /\ bytes_left s < lenN (avail rest k1 4)).
Proof. exact socket_failure_exact. Qed.
Print Assumptions C22_socket_overflow_exact.

(** C22: and it happens when a header is split. *)
Theorem C22_split_header_refuted :
  exists p k1 k2 s1 rest1, sendable p /\ tick lls_init (flat_map send_packet [p]) 1 1 = TOk s1 rest1 None /\
  tick s1 rest1 k1 k2 = TUndefined.
Proof. exact socket_overflow. Qed.
Print Assumptions C22_split_header_refuted.

(** C22: an empty packet closes the receiving socket. *)
Theorem C22_empty_packet_refuted : tick lls_init (flat_map send_packet [[]]) 4 4 = TClosed.
Proof. exact socket_empty_packet. Qed.
Print Assumptions C22_empty_packet_refuted.
