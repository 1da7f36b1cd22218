(** Model of the H4 parser and packetizer.
    Sources: model/hci/h4.h, model/hci/h4_parser.{h,cc},
             model/hci/h4_data_channel_packetizer.cc *)
From Verif Require Import Prelude.

(** model/hci/h4.h PacketType (UNKNOWN 0, COMMAND 1, ACL 2, SCO 3, EVENT 4,
    ISO 5); the enum is stored as its underlying byte. *)
Definition PT_UNKNOWN : N := 0.
Definition PT_COMMAND : N := 1.
Definition PT_ACL : N := 2.
Definition PT_SCO : N := 3.
Definition PT_EVENT : N := 4.
Definition PT_ISO : N := 5.

(** model/hci/h4_parser.h:48 *)
Inductive state := HCI_TYPE | HCI_PREAMBLE | HCI_PAYLOAD | HCI_RECOVERY.

(** model/hci/h4_parser.h:99-105 *)
Record parser := {
  hci_packet_type : N;
  st : state;
  packet_type : N;
  packet : list N;
  bytes_wanted : N;
  enable_recovery : bool
}.

(** model/hci/h4_parser.cc:58-66 and the member initialisers of the header *)
Definition init (recovery : bool) : parser :=
  {| hci_packet_type := PT_UNKNOWN; st := HCI_TYPE; packet_type := 0;
     packet := []; bytes_wanted := 0; enable_recovery := recovery |}.

(** model/hci/h4_parser.cc:30-35 (hci_packet_type_ is not reset) *)
Definition reset (p : parser) : parser :=
  {| hci_packet_type := hci_packet_type p; st := HCI_TYPE; packet_type := 0;
     packet := []; bytes_wanted := 0; enable_recovery := enable_recovery p |}.

(** model/hci/h4_parser.h:65-66 *)
Definition set_recovery (p : parser) (b : bool) : parser :=
  {| hci_packet_type := hci_packet_type p; st := st p; packet_type := packet_type p;
     packet := packet p; bytes_wanted := bytes_wanted p; enable_recovery := b |}.

(** The callback invoked, with the packet it receives. *)
Inductive delivery :=
| ToCommand (p : list N)
| ToAcl (p : list N)
| ToSco (p : list N)
| ToEvent (p : list N)
| ToIso (p : list N).

(** Outcome of one call: normal return value with the new parser and the
    callbacks invoked, FATAL (abort), or an out-of-bounds access. *)
Inductive outcome :=
| Done (ret : bool) (p : parser) (out : list delivery)
| Fatal
| Undefined.

(** model/hci/h4_parser.cc:92-101 *)
Definition bytes_requested (p : parser) : N :=
  match st p with
  | HCI_TYPE | HCI_RECOVERY => 1
  | HCI_PREAMBLE | HCI_PAYLOAD => bytes_wanted p
  end.

(** model/hci/h4_parser.cc:113-120; [None] is an access past the table *)
Definition preamble_size (t : N) : option N :=
  nth_error [0; 3; 4; 3; 2; 4]%N (N.to_nat t).

(** model/hci/h4_parser.cc:37-56; [None] is an out-of-bounds access *)
Definition packet_length_for_type (t : N) (preamble : list N) : option N :=
  match nth_error [0; 2; 2; 2; 1; 2]%nat (N.to_nat t) with
  | None => None
  | Some offset =>
      match nth_error preamble offset with
      | None => None
      | Some size =>
          if (t =? PT_ACL)%N then
            match nth_error preamble (offset + 1) with
            | None => None
            | Some hi => Some (N.lor size (N.shiftl hi 8))
            end
          else if (t =? PT_ISO)%N then
            match nth_error preamble (offset + 1) with
            | None => None
            | Some hi => Some (N.lor size (N.shiftl (N.land hi 15) 8))
            end
          else Some size
      end
  end.

(** model/hci/h4_parser.cc:68-90; [None] is the FATAL default case *)
Definition on_packet_ready (t : N) (pkt : list N) : option delivery :=
  if (t =? PT_COMMAND)%N then Some (ToCommand pkt)
  else if (t =? PT_ACL)%N then Some (ToAcl pkt)
  else if (t =? PT_SCO)%N then Some (ToSco pkt)
  else if (t =? PT_EVENT)%N then Some (ToEvent pkt)
  else if (t =? PT_ISO)%N then Some (ToIso pkt)
  else None.

(** OnPacketReady() followed by state_ = HCI_TYPE (h4_parser.cc:185-186,196-197) *)
Definition finish (t : N) (ptype : N) (pkt : list N) (wanted : N) (rec : bool) : outcome :=
  match on_packet_ready t pkt with
  | None => Fatal
  | Some d =>
      Done true
        {| hci_packet_type := PT_UNKNOWN; st := HCI_TYPE; packet_type := ptype;
           packet := pkt; bytes_wanted := wanted; enable_recovery := rec |} [d]
  end.

(** model/hci/h4_parser.cc:131 *)
Definition reset_command : list N := [1; 3; 12; 0]%N.

(** model/hci/h4_parser.cc:103-202. [buffer] holds exactly bytes_read bytes.
    The two consecutive switches on state_ are fused case by case, since the
    first one does not modify state_. *)
Definition consume (p : parser) (buffer : list N) : outcome :=
  match buffer with
  | [] => Done false p []
  | b :: _ =>
      if (bytes_requested p <? lenN buffer)%N then Fatal else
      match st p with
      | HCI_TYPE =>
          if (b =? PT_ACL)%N || (b =? PT_SCO)%N || (b =? PT_COMMAND)%N
             || (b =? PT_EVENT)%N || (b =? PT_ISO)%N then
            match preamble_size b with
            | None => Undefined
            | Some n =>
                Done true
                  {| hci_packet_type := b; st := HCI_PREAMBLE; packet_type := b;
                     packet := []; bytes_wanted := n;
                     enable_recovery := enable_recovery p |} []
            end
          else if negb (enable_recovery p) then Fatal
          else
            Done true
              {| hci_packet_type := PT_COMMAND; st := HCI_RECOVERY; packet_type := b;
                 packet := []; bytes_wanted := 1;
                 enable_recovery := enable_recovery p |} []
      | HCI_RECOVERY =>
          let offset := length (packet p) in
          let pkt := packet p ++ [b] in
          match nth_error reset_command offset with
          | None => Undefined
          | Some r =>
              let pkt' := if (b =? r)%N then pkt
                          else if (b =? 1)%N then [b] else [] in
              if (lenN pkt' =? 4)%N then
                finish (hci_packet_type p) (packet_type p) (tl pkt') 0 (enable_recovery p)
              else if (bytes_wanted p =? 0)%N then
                finish (hci_packet_type p) (packet_type p) pkt' 0 (enable_recovery p)
              else
                Done true
                  {| hci_packet_type := hci_packet_type p; st := HCI_RECOVERY;
                     packet_type := packet_type p; packet := pkt';
                     bytes_wanted := bytes_wanted p;
                     enable_recovery := enable_recovery p |} []
          end
      | HCI_PREAMBLE =>
          let pkt := packet p ++ buffer in
          let wanted := (bytes_wanted p - lenN buffer)%N in
          if (wanted =? 0)%N then
            match packet_length_for_type (hci_packet_type p) pkt with
            | None => Undefined
            | Some size =>
                if (size =? 0)%N then
                  finish (hci_packet_type p) (packet_type p) pkt 0 (enable_recovery p)
                else
                  Done true
                    {| hci_packet_type := hci_packet_type p; st := HCI_PAYLOAD;
                       packet_type := packet_type p; packet := pkt;
                       bytes_wanted := size;
                       enable_recovery := enable_recovery p |} []
            end
          else
            Done true
              {| hci_packet_type := hci_packet_type p; st := HCI_PREAMBLE;
                 packet_type := packet_type p; packet := pkt;
                 bytes_wanted := wanted;
                 enable_recovery := enable_recovery p |} []
      | HCI_PAYLOAD =>
          let pkt := packet p ++ buffer in
          let wanted := (bytes_wanted p - lenN buffer)%N in
          if (wanted =? 0)%N then
            finish (hci_packet_type p) (packet_type p) pkt 0 (enable_recovery p)
          else
            Done true
              {| hci_packet_type := hci_packet_type p; st := HCI_PAYLOAD;
                 packet_type := packet_type p; packet := pkt;
                 bytes_wanted := wanted;
                 enable_recovery := enable_recovery p |} []
      end
  end.

(** A sequence of Consume calls; stops at the first abnormal outcome. *)
Fixpoint run (p : parser) (chunks : list (list N)) : outcome :=
  match chunks with
  | [] => Done true p []
  | c :: cs =>
      match consume p c with
      | Done _ p' out =>
          match run p' cs with
          | Done r p'' out' => Done r p'' (out ++ out')
          | o => o
          end
      | o => o
      end
  end.

(** The caller's obligation (h4_parser.h:37-44): every read is non-empty and
    not larger than the parser requested at that time. *)
Fixpoint respects (p : parser) (chunks : list (list N)) : bool :=
  match chunks with
  | [] => true
  | c :: cs =>
      (1 <=? lenN c)%N && (lenN c <=? bytes_requested p)%N &&
      match consume p c with
      | Done _ p' _ => respects p' cs
      | _ => true
      end
  end.

(** model/hci/h4_data_channel_packetizer.cc:43-59: Send writes the type byte
    then the packet. *)
Definition send (t : N) (data : list N) : list N := t :: data.

(** model/hci/h4_data_channel_packetizer.cc:61-92, the OnDataReady loop: each
    turn asks for BytesRequested() bytes and the transport returns between one
    and that many; [sizes] is the arbitrary schedule of read sizes. The loop
    stops when the transport has nothing left (EAGAIN) or the schedule ends. *)
Fixpoint on_data_ready (p : parser) (stream : list N) (sizes : list nat)
  : option (parser * list delivery * list N) :=
  match sizes with
  | [] => Some (p, [], stream)
  | k :: ks =>
      match stream with
      | [] => Some (p, [], [])
      | _ =>
          let n := Nat.min (Nat.max 1 k) (N.to_nat (bytes_requested p)) in
          match consume p (firstn n stream) with
          | Done true p' out =>
              match on_data_ready p' (skipn n stream) ks with
              | Some (p'', out', rest) => Some (p'', out ++ out', rest)
              | None => None
              end
          | _ => None
          end
      end
  end.
