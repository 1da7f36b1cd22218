(** Data over LE links: model of HandleAcl, HandleIso and the packets received on a
    connection in model/controller/le_controller.cc, with the supervision of the links
    (model/controller/le_acl_connection.cc) and the task queue both depend on. Line
    numbers are those of le_controller.cc unless another file is named.

    Simplifications. The clock is read once per step. Addresses are numbers. The tables of
    the isochronous stream manager are those of Iso.v; they are given afresh to every step
    ([env]), so that they may change in any way between steps. Of the packets that arrive on
    a connection only data, pings and disconnections are acted on; the others ([OtherPacket])
    only count as heard. What the controller does besides data and supervision is left out,
    so are the RSSI and the transmission powers. *)
From Verif Require Import Prelude Table.
From Verif Require Iso.
Open Scope N_scope.

(** hci_packets.pdl:6326-6336, IsoPacketBoundaryFlag *)
Inductive boundary := FIRST | CONTINUATION | COMPLETE | LAST.

(** hci_packets.pdl (Acl): handle, packet boundary flag, broadcast flag, data *)
Record acl_packet := AclPacket { a_handle : N; a_boundary : N; a_broadcast : N; a_data : list N }.
(** hci_packets.pdl:6338-6347 (Iso): the payload is kept as bytes *)
Record iso_packet := IsoPacket { i_handle : N; i_boundary : boundary; i_stamped : bool; i_load : list N }.

(** link_layer_packets.pdl: the packets of a connection *)
Inductive content :=
| Acl (b bc : N) (data : list N)
| IsoPdu (cig cis seq : N) (data : list N)
| PingRequest
| PingResponse
| Bye (reason : N)
| OtherPacket.
Record frame := Frame { source : N; destination : N; about : content }.

Inductive output :=
| Sent (f : frame)
| AclToHost (p : acl_packet)
| IsoToHost (p : iso_packet)
| Completed (h : N)               (* Number Of Completed Packets, one packet *)
| Disconnected (h reason : N).

(** le_acl_connection.h:30-92 *)
Record link := Link { own : N; peer : N; last_heard : N }.

(** The tasks: 4072-4078, 5424-5430, 5439-5442, 6359-6366, 6638-6644 *)
Inductive job := Say (o : output) | CheckLink (h : N).
(** le_controller.h:966-991: a std::set ordered by time, then identifier *)
Record task := Task { due : N; ident : N; todo : job }.

Record state := State {
  links : table link;
  sdu : list N;          (* iso_sdu_, le_controller.h:958 *)
  queue : list task;
  next_id : N
}.
Definition with_links v s := State v (sdu s) (queue s) (next_id s).
Definition with_sdu v s := State (links s) v (queue s) (next_id s).
Definition with_queue v s := State (links s) (sdu s) v (next_id s).

Definition initial : state := State [] [] [] 1.

(** What a step finds outside of this model: the streams, whether the event Disconnection
    Complete is unmasked, the size of the ISO buffers, and the orders of the iterations over
    unordered maps *)
Record env := Env { iso : Iso.state; told : bool; iso_length : N; pick_link : nat; pick_cis : nat }.

Definition before (t u : task) : bool :=
  (due t <? due u) || ((due t =? due u) && (ident t <? ident u)).
Fixpoint insert (t : task) (q : list task) : list task :=
  match q with
  | [] => [t]
  | u :: q' => if before t u then t :: q else u :: insert t q'
  end.
(** 6654-6668 (NextTaskId, ScheduleTask); the counter is not bounded *)
Definition schedule (time : N) (j : job) (s : state) : state :=
  State (links s) (sdu s) (insert (Task time (next_id s) j) (queue s)) (next_id s + 1).

(** 4072-4078 (SendLeLinkLayerPacket) *)
Definition transmit (now : N) (f : frame) (s : state) : state := schedule now (Say (Sent f)) s.
(** 6359-6366 *)
Definition tell_disconnection (e : env) (now h reason : N) (s : state) : state :=
  if told e then schedule now (Say (Disconnected h reason)) s else s.

(** le_acl_connection.cc:30-38 (the timeout), 50-68: three seconds, in microseconds *)
Definition kTimeout : N := 3000000.
Definition CONNECTION_TIMEOUT : N := 8.
Definition REMOTE_USER_TERMINATED : N := 0x13.
(** std::chrono::duration_cast<milliseconds> of a duration that is not negative *)
Definition whole_ms (t : N) : N := t / 1000 * 1000.

(** 6368-6385 (Disconnect) *)
Definition disconnect (e : env) (now h host_reason reason : N) (s : state) : state :=
  match lookup (links s) h with
  | Some c =>
      let s := transmit now (Frame (own c) (peer c) (Bye host_reason)) s in
      let s := with_links (erase (links s) h) s in
      tell_disconnection e now h reason s
  | None => s
  end.

(** 6623-6645 (CheckExpiringConnection) *)
Definition check_link (e : env) (now h : N) (s : state) : state :=
  match lookup (links s) h with
  | None => s
  | Some c =>
      if last_heard c + kTimeout <? now then disconnect e now h CONNECTION_TIMEOUT CONNECTION_TIMEOUT s
      else if last_heard c + kTimeout / 2 <? now then
        let s := transmit now (Frame (own c) (peer c) PingRequest) s in
        schedule (now + whole_ms (last_heard c + kTimeout - now)) (CheckLink h) s
      else schedule (now + whole_ms (last_heard c + kTimeout / 2 - now)) (CheckLink h) s
  end.

(** 5524-5546 (HandleLeConnection), acl_connection_handler.cc:90-102: emplace does not
    replace a connection. The supervision timeout is only reported. *)
Definition link_up (e : env) (now h a b : N) (s : state) : state :=
  let s := match lookup (links s) h with
           | None => with_links (put (links s) h (Link a b now)) s
           | Some _ => s
           end in
  check_link e now h s.

(** 6568-6585 (DisconnectAll, Reset): the tasks and iso_sdu_ are left as they are. The
    order in which the links are taken is that of the table. *)
Definition reset (now : N) (s : state) : state :=
  let s := fold_left (fun s c => transmit now (Frame (own c) (peer c) (Bye REMOTE_USER_TERMINATED)) s) (values (links s)) s in
  with_links [] s.

(** 5398-5431 (HandleAcl); BroadcastFlag::POINT_TO_POINT is 0 *)
Definition handle_acl (now : N) (p : acl_packet) (s : state) : option state :=
  if a_broadcast p =? 0 then
    let s := match lookup (links s) (a_handle p) with
             | Some c => transmit now (Frame (own c) (peer c) (Acl (a_boundary p) (a_broadcast p) (a_data p))) s
             | None => s
             end in
    Some (schedule now (Say (Completed (a_handle p))) s)
  else None.

(** rust/src/llcp/iso.rs:289-296 *)
Definition max_sdu_tx (c : Iso.cis) : option N :=
  match Iso.c_params c with
  | None => None
  | Some p => Some (match Iso.c_role c with Iso.CENTRAL => Iso.p_sdu_cp p | Iso.PERIPHERAL => Iso.p_sdu_pc p end)
  end.
(** rust/src/ffi.rs:403-428, with the initial values of 5468-5472: the handle of the link,
    the identifiers, the largest SDU *)
Definition cis_information (i : Iso.state) (h : N) : option (N * N * N * N) :=
  match lookup (Iso.conns i) h with
  | None => None
  | Some c => Some (match Iso.c_acl c with Some a => a | None => 0xffff end, Iso.c_cig c, Iso.c_cis c,
                    match max_sdu_tx c with Some n => n | None => 0 end)
  end.

Definition opens (b : boundary) : bool := match b with FIRST | COMPLETE => true | _ => false end.
Definition closes (b : boundary) : bool := match b with LAST | COMPLETE => true | _ => false end.

(** hci_packets.pdl:6349-6369 (IsoWithTimestamp, IsoWithoutTimestamp): the sequence number
    and the data; [None] if the view is not valid *)
Definition parse_load (stamped : bool) (l : list N) : option (N * list N) :=
  if stamped then
    match l with
    | _ :: _ :: _ :: _ :: q0 :: q1 :: _ :: _ :: d => Some (q0 + 256 * q1, d)
    | _ => None
    end
  else
    match l with
    | q0 :: q1 :: _ :: _ :: d => Some (q0 + 256 * q1, d)
    | _ => None
    end.

(** 5433-5522 (HandleIso) *)
Definition handle_iso (e : env) (now : N) (p : iso_packet) (s : state) : option state :=
  let s := schedule now (Say (Completed (i_handle p))) s in
  if iso_length e <? lenN (i_load p) then None
  else if i_stamped p && negb (opens (i_boundary p)) then None
  else
    match cis_information (iso e) (i_handle p) with
    | None => Some s
    | Some (a, g, c, max) =>
        match lookup (links s) a with
        | None => Some s
        | Some k =>
            let s := if opens (i_boundary p) then with_sdu [] s else s in
            match parse_load (i_stamped p) (i_load p) with
            | None => None
            | Some (seq, d) =>
                let s := with_sdu (sdu s ++ d) s in
                if closes (i_boundary p) then
                  if max <? lenN (sdu s) then Some s
                  else Some (with_sdu [] (transmit now (Frame (own k) (peer k) (IsoPdu g c seq (sdu s))) s))
                else Some s
            end
        end
    end.

(** acl_connection_handler.cc:135-144, first match of an iteration over an unordered map *)
Definition link_of (pick : nat) (mine theirs : N) (s : state) : option N :=
  Iso.choose pick (keys (filter (fun e => (peer (snd e) =? theirs) && (own (snd e) =? mine)) (links s))).

(** 4239-4262: FIRST_NON_AUTOMATICALLY_FLUSHABLE is 0, FIRST_AUTOMATICALLY_FLUSHABLE is 2 *)
Definition incoming_acl (h b bc : N) (d : list N) : list output :=
  [AclToHost (AclPacket h (if b =? 0 then 2 else b) bc d)].

(** 5373-5374 *)
Definition kMaxPayloadSize : N := 4095 - 4.
(** IsoWithoutTimestampBuilder: the sequence number, the SDU length of 12 bits (the builder
    keeps the low bits), the status VALID, the data *)
Definition iso_load (seq size : N) (d : list N) : list N :=
  [seq mod 256; seq / 256 mod 256; size mod 4096 mod 256; size mod 4096 / 256] ++ d.
(** 5378-5395; [fuel] bounds the iterations of the loop *)
Fixpoint pieces (fuel : nat) (h seq size : N) (b : boundary) (d : list N) : list output :=
  match fuel with
  | O => []
  | S fuel =>
      let n := N.to_nat kMaxPayloadSize in
      let rest := skipn n d in
      IsoToHost (IsoPacket h b false (iso_load seq size (firstn n d))) ::
      match rest with
      | [] => []
      | _ => pieces fuel h seq size (if lenN rest <=? kMaxPayloadSize then LAST else CONTINUATION) rest
      end
  end.
(** 5358-5396 (IncomingLeConnectedIsochronousPdu), manager.rs:133-136 *)
Definition incoming_iso (e : env) (g c seq : N) (d : list N) : list output :=
  match Iso.find_cis (pick_cis e) (fun x => (Iso.c_cig x =? g) && (Iso.c_cis x =? c)) (iso e) with
  | None => []
  | Some h => pieces (S (length d)) h seq (lenN d mod 65536) (if lenN d <=? kMaxPayloadSize then COMPLETE else FIRST) d
  end.

(** 4092-4236 (IncomingPacket) from 4119 on, 4291-4308, 6647-6652 *)
Definition receive (e : env) (now : N) (f : frame) (s : state) : state * list output :=
  match link_of (pick_link e) (destination f) (source f) s with
  | None => (s, [])
  | Some h =>
      let s := match lookup (links s) h with
               | Some k => with_links (put (links s) h (Link (own k) (peer k) now)) s
               | None => s
               end in
      match about f with
      | Acl b bc d => (s, incoming_acl h b bc d)
      | IsoPdu g c seq d => (s, incoming_iso e g c seq d)
      | PingRequest => (transmit now (Frame (destination f) (source f) PingResponse) s, [])
      | Bye reason => (tell_disconnection e now h reason (with_links (erase (links s) h) s), [])
      | PingResponse | OtherPacket => (s, [])
      end
  end.

(** 6689-6708 (RunPendingTasks). The tasks scheduled while it runs read a later clock, so
    they wait for the next tick. *)
Fixpoint ready (now : N) (q : list task) : list task :=
  match q with
  | t :: q' => if due t <=? now then t :: ready now q' else []
  | [] => []
  end.
Fixpoint later (now : N) (q : list task) : list task :=
  match q with
  | t :: q' => if due t <=? now then later now q' else q
  | [] => []
  end.
Fixpoint run_tasks (e : env) (now : N) (l : list task) (s : state) : state * list output :=
  match l with
  | [] => (s, [])
  | t :: l =>
      let '(s, out) := match todo t with
                       | Say o => (s, [o])
                       | CheckLink h => (check_link e now h s, [])
                       end in
      let '(s, out') := run_tasks e now l s in
      (s, out ++ out')
  end.
(** 6323-6327 (Tick) *)
Definition tick (e : env) (now : N) (s : state) : state * list output :=
  run_tasks e now (ready now (queue s)) (with_queue (later now (queue s)) s).

(** What happens to the controller *)
Inductive op :=
| LinkUp (h own peer timeout : N)   (* a connection is made; the timeout in units of 10 ms *)
| Disconnect (h reason : N)         (* HCI Disconnect *)
| Reset
| HostAcl (p : acl_packet)
| HostIso (p : iso_packet)
| Receive (f : frame)
| Tick.

(** [None] is an abort *)
Definition step (e : env) (now : N) (s : state) (o : op) : option (state * list output) :=
  match o with
  | LinkUp h a b _ => Some (link_up e now h a b s, [])
  | Disconnect h reason => Some (disconnect e now h reason 0x16 s, [])
  | Reset => Some (reset now s, [])
  | HostAcl p => match handle_acl now p s with Some s => Some (s, []) | None => None end
  | HostIso p => match handle_iso e now p s with Some s => Some (s, []) | None => None end
  | Receive f => Some (receive e now f s)
  | Tick => Some (tick e now s)
  end.
