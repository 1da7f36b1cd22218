(** The wire formats, written from the point of view of the peer. *)
From Verif Require Import Prelude TestChannel.
Open Scope N_scope.

(** A string is sent as a length byte and its characters. *)
Definition wire_string (s : list N) : list N := lenN s :: s.
(** A command: its name, the number of arguments, the arguments
    (scripts/test_channel.py sends the same). *)
Definition wire_command (name : list N) (args : list (list N)) : list N :=
  wire_string name ++ lenN args :: flat_map wire_string args.

Definition short (s : list N) : Prop := lenN s <= 255.
Definition good_command (name : list N) (args : list (list N)) : Prop :=
  short name /\ name <> [] /\ name <> close_command /\ Forall short args /\ lenN args <= 255.

(** All the bytes the peer has sent that were not read. *)
Definition unread (s : socket) : list N := queue s ++ concat (later s).

(** Reading a response: the length, then that many bytes. *)
Definition read_response (stream : list N) : option (list N * list N) :=
  if lenN stream <? 4 then None
  else
    let n := read32 stream in
    let body := skipn 4 stream in
    if lenN body <? n then None else Some (firstn (N.to_nat n) body, skipn (N.to_nat n) body).

(** The stream a peer sends for a list of packets. *)
Definition wire_packets (ps : list (list N)) : list N := flat_map (fun p => le32 (lenN p) ++ p) ps.
Definition sendable (p : list N) : Prop := p <> [] /\ lenN p < 4294967296.

(** The header of a packet never arrives in pieces. *)
Definition whole_header (k : N * N) : Prop := fst k = 0 \/ 4 <= fst k.
