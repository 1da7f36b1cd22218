(** Model of the HCI capture writer.
    Sources: include/pcap.h, model/hci/hci_sniffer.{h,cc}. Integers are written
    in host order; the host is little endian. The stream never fails. *)
From Verif Require Import Prelude PcapFilter.
Open Scope N_scope.

(** Writing the bytes of an unsigned integer [x] of [n] bytes *)
Fixpoint le (n : nat) (x : N) : list N :=
  match n with
  | O => []
  | S k => (x mod 256) :: le k (x / 256)
  end.

(** pcap.h:29-45 *)
Definition write_header (linktype : N) : list N :=
  le 4 0xa1b2c3d4 ++ le 2 2 ++ le 2 4 ++ le 4 0 ++ le 4 0 ++ le 4 0xffffffff ++ le 4 linktype.

(** pcap.h:47-60. [time] is the clock in microseconds since the epoch. The
    conversions to uint32_t are done by [le 4]. *)
Definition write_record_header (time length : N) : list N :=
  let seconds := time / 1000000 in
  let microseconds := (time mod 1000000) / 1000 in
  le 4 seconds ++ le 4 microseconds ++ le 4 length ++ le 4 length.

(** hci_sniffer.h:31-34 *)
Inductive direction := HostToController | ControllerToHost.
Definition direction_byte (d : direction) : N :=
  match d with HostToController => 0 | ControllerToHost => 1 end.

(** hci_sniffer.h:69-72. [output] holds the bytes written to the current
    stream, [None] for no stream; the filter is its table of names. *)
Record sniffer := { output : option (list N); filter_state : option name_map }.

(** hci_sniffer.cc:24-29 and 33-41 *)
Definition set_output_stream (s : sniffer) (present : bool) : sniffer :=
  {| output := if present then Some (write_header 201) else None; filter_state := filter_state s |}.
Definition new_sniffer (present : bool) (f : option name_map) : sniffer :=
  set_output_stream {| output := None; filter_state := f |} present.

(** hci_sniffer.h:44-48: the filter argument is not used. *)
Definition create_sniffer (present : bool) (f : option name_map) : sniffer :=
  new_sniffer present None.

(** hci_sniffer.cc:31 *)
Definition set_pcap_filter (s : sniffer) (f : option name_map) : sniffer :=
  {| output := output s; filter_state := f |}.

(** hci_sniffer.cc:43-73. [None]: the filter aborted on an invalid packet. *)
Definition append_record (s : sniffer) (d : direction) (ty : N) (packet : list N) (time : N)
  : option sniffer :=
  match output s with
  | None => Some s
  | Some out =>
      let header := write_record_header time (4 + 1 + lenN packet) ++
                    [0; 0; 0; direction_byte d] ++ [ty] in
      match filter_state s with
      | None => Some {| output := Some (out ++ header ++ packet); filter_state := None |}
      | Some m =>
          match filter_hci_packet m packet ty with
          | None => None
          | Some (m', p) => Some {| output := Some (out ++ header ++ p); filter_state := Some m' |}
          end
      end
  end.

(** What happens at the sniffer: a packet going through (hci_sniffer.cc:75-84
    and 95-98), at a given time. *)
Record passage := { p_dir : direction; p_type : N; p_packet : list N; p_time : N }.

(** The second component is what is handed on, to the host transport or to the
    controller callback. *)
Definition pass (s : sniffer) (p : passage) : option (sniffer * (direction * N * list N)) :=
  match append_record s (p_dir p) (p_type p) (p_packet p) (p_time p) with
  | None => None
  | Some s' => Some (s', (p_dir p, p_type p, p_packet p))
  end.

Fixpoint pass_all (s : sniffer) (ps : list passage)
  : option (sniffer * list (direction * N * list N)) :=
  match ps with
  | [] => Some (s, [])
  | p :: ps' =>
      match pass s p with
      | None => None
      | Some (s1, o) =>
          match pass_all s1 ps' with
          | None => None
          | Some (s2, os) => Some (s2, o :: os)
          end
      end
  end.
