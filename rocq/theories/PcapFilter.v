(** Model of the HCI capture filter.
    Sources: lib/hci/pcap_filter.cc, include/hci/pcap_filter.h and the packet
    layouts of packets/hci_packets.pdl. The views and builders generated by
    pdlc are modelled by their PDL description: [decode] extracts the fields of
    a packet ([None] when the view is not valid, on which the filter ASSERTs),
    [encode] serialises them, reserved bits being zero. *)
From Verif Require Import Prelude.
Open Scope N_scope.

(** pcap_filter.h:84-86: old name, new name *)
Definition name_map := list (list N * list N).

(** "%02zu": decimal, at least two digits. size_t is below 10^20. *)
Fixpoint decimal_digits (fuel : nat) (n : N) : list N :=
  match fuel with
  | O => []
  | S f => (if n <? 10 then [] else decimal_digits f (n / 10)) ++ [48 + n mod 10]
  end.
Definition decimal2 (n : N) : list N :=
  if n <? 10 then [48; 48 + n] else decimal_digits 20 n.

(** The text "#%02zu device" *)
Definition device_text (n : N) : list N :=
  [35] ++ decimal2 n ++ [32; 100; 101; 118; 105; 99; 101].

(** pcap_filter.cc:376-394: snprintf truncates to device_name_len characters;
    the rest of the buffer is zero, or spaces when [padded]. *)
Definition generate_device_name (device_nr : N) (len : nat) (padded : bool) : list N :=
  let text := firstn len (device_text device_nr) in
  text ++ repeat (if padded then 32 else 0) (len - length text).

Fixpoint find_name (m : name_map) (name : list N) : option (list N) :=
  match m with
  | [] => None
  | (old, new) :: m' => if list_eqb old name then Some new else find_name m' name
  end.

(** pcap_filter.cc:396-410 ([padded] = true, any length) and 412-431
    ([padded] = false, 248 bytes; the copies into the zeroed std::array are the
    identity because every stored name has the length of its original). *)
Definition change_device_name (padded : bool) (m : name_map) (name : list N) : name_map * list N :=
  match find_name m name with
  | Some new => (m, new)
  | None =>
      let new := generate_device_name (lenN m) (length name) padded in
      (m ++ [(name, new)], new)
  end.

(** hci_packets.pdl:6381-6382 *)
Definition is_name_type (t : N) : bool := (t =? 8) || (t =? 9).

(** pcap_filter.cc:165-198. [l] is the data from [offset] on; every turn
    advances by at least one byte so [fuel] = length suffices. The region
    replaced is [offset + 1, offset + length): the data type byte and the name
    without its last byte. *)
Fixpoint filter_gap_loop (fuel : nat) (m : name_map) (l : list N) : name_map * list N :=
  match fuel with
  | O => (m, l)
  | S f =>
      match l with
      | len :: ty :: _ =>
          let body := tl l in
          if Nat.ltb (length l) (N.to_nat len + 1) then (m, l)
          else if len =? 0 then
            let '(m', r) := filter_gap_loop f m body in (m', len :: r)
          else
            let entry := firstn (N.to_nat len) body in
            let rest := skipn (N.to_nat len) body in
            if is_name_type ty then
              let region := firstn (N.to_nat len - 1) entry in
              let '(m1, new) := change_device_name true m region in
              let '(m', r) := filter_gap_loop f m1 rest in
              (m', len :: new ++ skipn (N.to_nat len - 1) entry ++ r)
            else
              let '(m', r) := filter_gap_loop f m rest in (m', len :: entry ++ r)
      | _ => (m, l)
      end
  end.

Definition filter_gap (m : name_map) (l : list N) : name_map * list N :=
  filter_gap_loop (length l) m l.

(** hci_packets.pdl:5856-5863 (the 8 bytes before the data, the data, rssi) *)
Record adv_response := { ar_head : list N; ar_data : list N; ar_rssi : N }.
(** hci_packets.pdl:5993-6013 (the 23 bytes before the data size, the data) *)
Record ext_response := { er_head : list N; er_data : list N }.

(** The packets the filter distinguishes, with their PDL fields. *)
Inductive packet :=
| WriteLocalName (name : list N)                               (* pdl:1963 *)
| WriteExtendedInquiryResponse (fec : N) (eir : list N)        (* pdl:2474 *)
| LeSetAdvertisingData (scan_rsp : bool) (data : list N)       (* pdl:3327, 3337 *)
| LeSetExtendedData (scan_rsp : bool) (handle op frag : N) (data : list N) (* pdl:4004, 4026 *)
| LeSetPeriodicData (handle op : N) (data : list N)            (* pdl:4144 *)
| OtherCommand (op_code : N) (payload : list N)
| ReadLocalNameComplete (num status : N) (name : list N)       (* pdl:1974 *)
| ReadEirComplete (num status fec : N) (eir : list N)          (* pdl:2468 *)
| RemoteNameRequestComplete (status : N) (addr name : list N)  (* pdl:5449 *)
| ExtendedInquiryResult (addr : list N) (psrm : N) (cod : list N) (clock rssi : N) (eir : list N) (* pdl:5725 *)
| LeAdvertisingReport (rs : list adv_response)                 (* pdl:5865 *)
| LeExtendedAdvertisingReport (rs : list ext_response)         (* pdl:6015 *)
| OtherEvent (code : N) (payload : list N)
| AclData (h0 h1 : N) (payload : list N)                       (* pdl:23 *)
| ScoData (h0 h1 : N) (data : list N)                          (* pdl:40 *)
| IsoData (h0 h1 : N) (payload : list N).                      (* pdl:6338 *)

(** model/hci/h4.h: the type indicator passed as idc *)
Definition idc (p : packet) : N :=
  match p with
  | WriteLocalName _ | WriteExtendedInquiryResponse _ _ | LeSetAdvertisingData _ _
  | LeSetExtendedData _ _ _ _ _ | LeSetPeriodicData _ _ _ | OtherCommand _ _ => 1
  | AclData _ _ _ => 2
  | ScoData _ _ _ => 3
  | IsoData _ _ _ => 5
  | _ => 4
  end.

Definition command (op : N) (payload : list N) : list N :=
  [op mod 256; op / 256; lenN payload] ++ payload.
Definition event (code : N) (payload : list N) : list N := [code; lenN payload] ++ payload.

Definition pad31 (data : list N) : list N := data ++ repeat 0 (31 - length data).

Definition encode_adv (r : adv_response) : list N :=
  ar_head r ++ [lenN (ar_data r)] ++ ar_data r ++ [ar_rssi r].
Definition encode_ext (r : ext_response) : list N :=
  er_head r ++ [lenN (er_data r)] ++ er_data r.

(** Builders of packets/hci_packets.pdl *)
Definition encode (p : packet) : list N :=
  match p with
  | WriteLocalName name => command 0x0C13 name
  | WriteExtendedInquiryResponse fec eir => command 0x0C52 (fec :: eir)
  | LeSetAdvertisingData sr data =>
      command (if sr then 0x2009 else 0x2008) (lenN data :: pad31 data)
  | LeSetExtendedData sr h op frag data =>
      command (if sr then 0x2038 else 0x2037) ([h; op; frag; lenN data] ++ data)
  | LeSetPeriodicData h op data => command 0x203F ([h; op; lenN data] ++ data)
  | OtherCommand op payload => command op payload
  | ReadLocalNameComplete num st name => event 0x0E ([num; 0x14; 0x0C; st] ++ name)
  | ReadEirComplete num st fec eir => event 0x0E ([num; 0x51; 0x0C; st; fec] ++ eir)
  | RemoteNameRequestComplete st addr name => event 0x07 (st :: addr ++ name)
  | ExtendedInquiryResult addr psrm cod clock rssi eir =>
      event 0x2F ([1] ++ addr ++ [psrm; 0] ++ cod ++ [clock mod 256; clock / 256; rssi] ++ eir)
  | LeAdvertisingReport rs => event 0x3E ([0x02; lenN rs] ++ flat_map encode_adv rs)
  | LeExtendedAdvertisingReport rs => event 0x3E ([0x0D; lenN rs] ++ flat_map encode_ext rs)
  | OtherEvent code payload => event code payload
  | AclData h0 h1 payload => [h0; h1; lenN payload mod 256; lenN payload / 256] ++ payload
  | ScoData h0 h1 data => [h0; h1; lenN data] ++ data
  | IsoData h0 h1 payload => [h0; h1; lenN payload mod 256; lenN payload / 256] ++ payload
  end.

(** Views: split off exactly [n] bytes *)
Definition take (n : nat) (l : list N) : option (list N * list N) :=
  if Nat.ltb (length l) n then None else Some (firstn n l, skipn n l).

Fixpoint decode_adv (n : nat) (l : list N) : option (list adv_response) :=
  match n with
  | O => match l with [] => Some [] | _ => None end
  | S n' =>
      match take 8 l with
      | Some (h, len :: l1) =>
          match take (N.to_nat len) l1 with
          | Some (d, rssi :: l2) =>
              match decode_adv n' l2 with
              | Some rs => Some ({| ar_head := h; ar_data := d; ar_rssi := rssi |} :: rs)
              | None => None
              end
          | _ => None
          end
      | _ => None
      end
  end.

(** The reserved bits of the second event type byte read as zero. *)
Definition clear_ext_head (h : list N) : list N :=
  match h with
  | t0 :: _ :: r => N.land t0 127 :: 0 :: r
  | _ => h
  end.

Fixpoint decode_ext (n : nat) (l : list N) : option (list ext_response) :=
  match n with
  | O => match l with [] => Some [] | _ => None end
  | S n' =>
      match take 23 l with
      | Some (h, len :: l1) =>
          match take (N.to_nat len) l1 with
          | Some (d, l2) =>
              match decode_ext n' l2 with
              | Some rs => Some ({| er_head := clear_ext_head h; er_data := d |} :: rs)
              | None => None
              end
          | _ => None
          end
      | _ => None
      end
  end.

(** Command packets (pdl:768 and the children above): the size field must
    match the payload. *)
Definition decode_command (b : list N) : option packet :=
  match b with
  | o0 :: o1 :: len :: payload =>
      if negb (lenN payload =? len) then None
      else
        let op := o0 + 256 * o1 in
        if op =? 0x0C13 then
          if Nat.eqb (length payload) 248 then Some (WriteLocalName payload) else None
        else if op =? 0x0C52 then
          match payload with
          | fec :: eir => if Nat.eqb (length eir) 240
                          then Some (WriteExtendedInquiryResponse fec eir) else None
          | [] => None
          end
        else if (op =? 0x2008) || (op =? 0x2009) then
          match payload with
          | n :: data =>
              if Nat.eqb (length data) 31 && (n <=? 31)
              then Some (LeSetAdvertisingData (op =? 0x2009) (firstn (N.to_nat n) data)) else None
          | [] => None
          end
        else if (op =? 0x2037) || (op =? 0x2038) then
          match payload with
          | h :: o :: f :: n :: data =>
              if lenN data =? n
              then Some (LeSetExtendedData (op =? 0x2038) h (N.land o 7) (N.land f 1) data) else None
          | _ => None
          end
        else if op =? 0x203F then
          match payload with
          | h :: o :: n :: data =>
              if lenN data =? n then Some (LeSetPeriodicData h (N.land o 7) data) else None
          | _ => None
          end
        else Some (OtherCommand op payload)
  | _ => None
  end.

(** Event packets (pdl:901 and the children above) *)
Definition decode_event (b : list N) : option packet :=
  match b with
  | code :: len :: payload =>
      if negb (lenN payload =? len) then None
      else if code =? 0x3E then
        match payload with
        | sub :: body =>
            if sub =? 0x02 then
              match body with
              | n :: l => option_map LeAdvertisingReport (decode_adv (N.to_nat n) l)
              | [] => None
              end
            else if sub =? 0x0D then
              match body with
              | n :: l => option_map LeExtendedAdvertisingReport (decode_ext (N.to_nat n) l)
              | [] => None
              end
            else Some (OtherEvent code payload)
        | [] => None
        end
      else if code =? 0x0E then
        match payload with
        | num :: o0 :: o1 :: body =>
            if o0 + 256 * o1 =? 0x0C14 then
              match body with
              | st :: name => if Nat.eqb (length name) 248
                              then Some (ReadLocalNameComplete num st name) else None
              | [] => None
              end
            else if o0 + 256 * o1 =? 0x0C51 then
              match body with
              | st :: fec :: eir => if Nat.eqb (length eir) 240
                                    then Some (ReadEirComplete num st fec eir) else None
              | _ => None
              end
            else Some (OtherEvent code payload)
        | _ => None
        end
      else if code =? 0x07 then
        match payload with
        | st :: l =>
            match take 6 l with
            | Some (addr, name) => if Nat.eqb (length name) 248
                                   then Some (RemoteNameRequestComplete st addr name) else None
            | None => None
            end
        | [] => None
        end
      else if code =? 0x2F then
        match payload with
        | one :: l =>
            match take 6 l with
            | Some (addr, psrm :: _ :: c0 :: c1 :: c2 :: k0 :: k1 :: rssi :: eir) =>
                if (one =? 1) && Nat.eqb (length eir) 240
                then Some (ExtendedInquiryResult addr psrm [c0; c1; c2]
                             (k0 + 256 * N.land k1 127) rssi eir)
                else None
            | _ => None
            end
        | [] => None
        end
      else Some (OtherEvent code payload)
  | _ => None
  end.

(** pdl:23, 40, 6338 *)
Definition decode_acl (b : list N) : option packet :=
  match b with
  | h0 :: h1 :: s0 :: s1 :: payload =>
      if lenN payload =? s0 + 256 * s1 then Some (AclData h0 h1 payload) else None
  | _ => None
  end.
Definition decode_sco (b : list N) : option packet :=
  match b with
  | h0 :: h1 :: s :: data => if lenN data =? s then Some (ScoData h0 (N.land h1 63) data) else None
  | _ => None
  end.
Definition decode_iso (b : list N) : option packet :=
  match b with
  | h0 :: h1 :: s0 :: s1 :: payload =>
      if lenN payload =? s0 + 256 * N.land s1 63
      then Some (IsoData h0 (N.land h1 127) payload) else None
  | _ => None
  end.

(** pcap_filter.cc:350-356 and 368-371: the responses in order *)
Fixpoint filter_adv (m : name_map) (rs : list adv_response) : name_map * list adv_response :=
  match rs with
  | [] => (m, [])
  | r :: rs' =>
      let '(m1, d) := filter_gap m (ar_data r) in
      let '(m2, out) := filter_adv m1 rs' in
      (m2, {| ar_head := ar_head r; ar_data := d; ar_rssi := ar_rssi r |} :: out)
  end.
Fixpoint filter_ext (m : name_map) (rs : list ext_response) : name_map * list ext_response :=
  match rs with
  | [] => (m, [])
  | r :: rs' =>
      let '(m1, d) := filter_gap m (er_data r) in
      let '(m2, out) := filter_ext m1 rs' in
      (m2, {| er_head := er_head r; er_data := d |} :: out)
  end.

(** pcap_filter.cc:132-158 and 205-374, on the fields *)
Definition filter_packet (m : name_map) (p : packet) : name_map * packet :=
  match p with
  | WriteLocalName name =>
      let '(m', n) := change_device_name false m name in (m', WriteLocalName n)
  | WriteExtendedInquiryResponse fec eir =>
      let '(m', e) := filter_gap m eir in (m', WriteExtendedInquiryResponse fec e)
  | LeSetAdvertisingData sr data =>
      let '(m', d) := filter_gap m data in (m', LeSetAdvertisingData sr d)
  | LeSetExtendedData sr h op frag data =>
      let '(m', d) := filter_gap m data in (m', LeSetExtendedData sr h op frag d)
  | LeSetPeriodicData h op data =>
      let '(m', d) := filter_gap m data in (m', LeSetPeriodicData h op d)
  | OtherCommand _ _ => (m, p)
  | ReadLocalNameComplete num st name =>
      if st =? 0 then
        let '(m', n) := change_device_name false m name in (m', ReadLocalNameComplete num st n)
      else (m, p)
  | ReadEirComplete num st fec eir =>
      if st =? 0 then
        let '(m', e) := filter_gap m eir in (m', ReadEirComplete num st fec e)
      else (m, p)
  | RemoteNameRequestComplete st addr name =>
      if st =? 0 then
        let '(m', n) := change_device_name false m name in (m', RemoteNameRequestComplete st addr n)
      else (m, p)
  | ExtendedInquiryResult addr psrm cod clock rssi eir =>
      let '(m', e) := filter_gap m eir in (m', ExtendedInquiryResult addr psrm cod clock rssi e)
  | LeAdvertisingReport rs => let '(m', r) := filter_adv m rs in (m', LeAdvertisingReport r)
  | LeExtendedAdvertisingReport rs =>
      let '(m', r) := filter_ext m rs in (m', LeExtendedAdvertisingReport r)
  | OtherEvent _ _ => (m, p)
  | AclData h0 h1 payload => (m, AclData h0 h1 (repeat 0 (length payload)))
  | ScoData h0 h1 data => (m, ScoData h0 h1 (repeat 0 (length data)))
  | IsoData h0 h1 payload => (m, IsoData h0 h1 (repeat 0 (length payload)))
  end.

Definition decode (i : N) (b : list N) : option packet :=
  if i =? 1 then decode_command b else if i =? 2 then decode_acl b
  else if i =? 3 then decode_sco b else if i =? 4 then decode_event b else decode_iso b.

(** pcap_filter.cc:50-130. [None] is a failed ASSERT on the view. Packets the
    filter does not distinguish are copied unchanged, byte for byte. *)
Definition filter_hci_packet (m : name_map) (b : list N) (i : N) : option (name_map * list N) :=
  if (1 <=? i) && (i <=? 5) then
    match decode i b with
    | None => None
    | Some (OtherCommand _ _) | Some (OtherEvent _ _) => Some (m, b)
    | Some p => let '(m', p') := filter_packet m p in Some (m', encode p')
    end
  else Some (m, b).

(** A capture: the packets of one session, in order. *)
Fixpoint filter_all (m : name_map) (ps : list (list N * N)) : option (name_map * list (list N)) :=
  match ps with
  | [] => Some (m, [])
  | (b, i) :: ps' =>
      match filter_hci_packet m b i with
      | None => None
      | Some (m1, o) =>
          match filter_all m1 ps' with
          | None => None
          | Some (m2, os) => Some (m2, o :: os)
          end
      end
  end.
