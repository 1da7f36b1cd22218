(** Vocabulary for the capture filter: what a well-formed packet is, where the
    names are, and the advertising structures of the Core Specification
    (Vol 3, Part C, 11: length, type, data; length zero is padding). *)
From Verif Require Import Prelude PcapFilter.
Open Scope N_scope.

Definition bytes (l : list N) : Prop := Forall (fun b => b < 256) l.

(** Field ranges of packets/hci_packets.pdl; reserved bits are zero. *)
Definition well_formed (p : packet) : Prop :=
  match p with
  | WriteLocalName name => length name = 248%nat
  | WriteExtendedInquiryResponse _ eir => length eir = 240%nat
  | LeSetAdvertisingData _ data => (length data <= 31)%nat
  | LeSetExtendedData _ _ op frag data => op < 8 /\ frag < 2 /\ (length data <= 251)%nat
  | LeSetPeriodicData _ op data => op < 8 /\ (length data <= 252)%nat
  | OtherCommand op payload =>
      op < 65536 /\ (length payload <= 255)%nat /\
      ~ In op [0x0C13; 0x0C52; 0x2008; 0x2009; 0x2037; 0x2038; 0x203F]
  | ReadLocalNameComplete _ _ name => length name = 248%nat
  | ReadEirComplete _ _ _ eir => length eir = 240%nat
  | RemoteNameRequestComplete _ addr name => length addr = 6%nat /\ length name = 248%nat
  | ExtendedInquiryResult addr _ cod clock _ eir =>
      length addr = 6%nat /\ length cod = 3%nat /\ clock < 32768 /\ length eir = 240%nat
  | LeAdvertisingReport rs => Forall (fun r => length (ar_head r) = 8%nat) rs
  | LeExtendedAdvertisingReport rs =>
      Forall (fun r => exists t0 r', er_head r = t0 :: 0 :: r' /\ t0 < 128 /\ length r' = 21%nat) rs
  | OtherEvent code payload => ~ In code [0x3E; 0x0E; 0x07; 0x2F]
  | AclData _ _ payload => lenN payload < 65536
  | ScoData _ h1 _ => h1 < 64
  | IsoData _ h1 payload => h1 < 128 /\ lenN payload < 16384
  end.

(** The user's name carried by a packet in a fixed size field. *)
Definition name_of (p : packet) : option (list N) :=
  match p with
  | WriteLocalName name => Some name
  | ReadLocalNameComplete _ st name => if st =? 0 then Some name else None
  | RemoteNameRequestComplete st _ name => if st =? 0 then Some name else None
  | _ => None
  end.
Definition with_name (p : packet) (n : list N) : packet :=
  match p with
  | WriteLocalName _ => WriteLocalName n
  | ReadLocalNameComplete num st _ => ReadLocalNameComplete num st n
  | RemoteNameRequestComplete st addr _ => RemoteNameRequestComplete st addr n
  | _ => p
  end.

(** The link payload carried by a packet. *)
Definition payload_of (p : packet) : option (list N) :=
  match p with
  | AclData _ _ d | ScoData _ _ d | IsoData _ _ d => Some d
  | _ => None
  end.
Definition with_payload (p : packet) (d : list N) : packet :=
  match p with
  | AclData h0 h1 _ => AclData h0 h1 d
  | ScoData h0 h1 _ => ScoData h0 h1 d
  | IsoData h0 h1 _ => IsoData h0 h1 d
  | _ => p
  end.

(** The GAP data carried by a packet. *)
Definition gap_of (p : packet) : list (list N) :=
  match p with
  | WriteExtendedInquiryResponse _ d | LeSetAdvertisingData _ d
  | LeSetExtendedData _ _ _ _ d | LeSetPeriodicData _ _ d
  | ReadEirComplete _ _ _ d | ExtendedInquiryResult _ _ _ _ _ d => [d]
  | LeAdvertisingReport rs => map ar_data rs
  | LeExtendedAdvertisingReport rs => map er_data rs
  | _ => []
  end.

(** One advertising structure. *)
Record ad := { ad_type : N; ad_data : list N }.
Definition ad_bytes (a : ad) : list N := [1 + lenN (ad_data a); ad_type a] ++ ad_data a.
Definition ad_ok (a : ad) : Prop := (length (ad_data a) <= 254)%nat.
Definition is_name (a : ad) : bool := (ad_type a =? 8) || (ad_type a =? 9).

(** Two packets that differ at most in the user data of fixed size fields:
    names are renamed by [f] and link payloads are replaced by any other
    payload of the same length. *)
Inductive differ_in_user_data (f : list N -> list N) : packet -> packet -> Prop :=
| differ_name p n : name_of p = Some n -> differ_in_user_data f p (with_name p (f n))
| differ_payload p d d' : payload_of p = Some d -> length d' = length d ->
    differ_in_user_data f p (with_payload p d')
| differ_not p : name_of p = None -> payload_of p = None -> differ_in_user_data f p p.

(** [f] renames full length names one to one, and changes nothing else. *)
Definition renaming (f : list N -> list N) : Prop :=
  (forall x y, f x = f y -> x = y) /\
  (forall x, length (f x) = length x) /\
  (forall x, length x <> 248%nat -> f x = x).

(** A packet with its type indicator, as handed to the filter. *)
Definition framed (p : packet) : list N * N := (encode p, idc p).

(** The first bytes: op code or event code, and size. *)
Definition header_size (p : packet) : nat :=
  match idc p with 1 => 3 | 2 => 4 | 3 => 3 | 5 => 4 | _ => 2 end.

(** Invariant of the table of pseudonyms: a pseudonym is as long as its name. *)
Definition names_ok (m : name_map) : Prop := Forall (fun e => length (snd e) = length (fst e)) m.

(** ** Captures which differ in user data only, names in GAP data included *)

(** One advertising structure, where the part of a name that the filter replaces is
    renamed: everything but the last byte, with a renaming which may depend on the type *)
Inductive ad_differ (f : list N -> list N) : ad -> ad -> Prop :=
| ad_other a : is_name a = false -> ad_differ f a a
| ad_empty a : ad_data a = [] -> ad_differ f a a
| ad_renamed ty n x n' : ty = 8 \/ ty = 9 -> f (ty :: n) = ty :: n' ->
    ad_differ f {| ad_type := ty; ad_data := n ++ [x] |} {| ad_type := ty; ad_data := n' ++ [x] |}.

(** GAP data made of structures followed by padding *)
Inductive gap_differ (f : list N -> list N) : list N -> list N -> Prop :=
| gap_differ_ads ads ads' k : Forall ad_ok ads -> Forall2 (ad_differ f) ads ads' ->
    gap_differ f (flat_map ad_bytes ads ++ repeat 0 k) (flat_map ad_bytes ads' ++ repeat 0 k).

Inductive differ_everywhere (f : list N -> list N) : packet -> packet -> Prop :=
| de_name p n : name_of p = Some n -> differ_everywhere f p (with_name p (f n))
| de_payload p d d' : payload_of p = Some d -> length d' = length d ->
    differ_everywhere f p (with_payload p d')
| de_write_eir fec d d' : gap_differ f d d' ->
    differ_everywhere f (WriteExtendedInquiryResponse fec d) (WriteExtendedInquiryResponse fec d')
| de_adv_data b d d' : gap_differ f d d' ->
    differ_everywhere f (LeSetAdvertisingData b d) (LeSetAdvertisingData b d')
| de_ext_data b h op frag d d' : gap_differ f d d' ->
    differ_everywhere f (LeSetExtendedData b h op frag d) (LeSetExtendedData b h op frag d')
| de_periodic_data h op d d' : gap_differ f d d' ->
    differ_everywhere f (LeSetPeriodicData h op d) (LeSetPeriodicData h op d')
| de_read_eir num fec d d' : gap_differ f d d' ->
    differ_everywhere f (ReadEirComplete num 0 fec d) (ReadEirComplete num 0 fec d')
| de_inquiry_result a p c k r d d' : gap_differ f d d' ->
    differ_everywhere f (ExtendedInquiryResult a p c k r d) (ExtendedInquiryResult a p c k r d')
| de_report rs rs' :
    Forall2 (fun r r' => ar_head r' = ar_head r /\ ar_rssi r' = ar_rssi r /\ gap_differ f (ar_data r) (ar_data r')) rs rs' ->
    differ_everywhere f (LeAdvertisingReport rs) (LeAdvertisingReport rs')
| de_ext_report rs rs' :
    Forall2 (fun r r' => er_head r' = er_head r /\ gap_differ f (er_data r) (er_data r')) rs rs' ->
    differ_everywhere f (LeExtendedAdvertisingReport rs) (LeExtendedAdvertisingReport rs')
| de_same p : name_of p = None -> payload_of p = None -> gap_of p = [] -> differ_everywhere f p p.

(** [f] renames one to one and keeps lengths. *)
Definition injective_renaming (f : list N -> list N) : Prop :=
  (forall x y, f x = f y -> x = y) /\ (forall x, length (f x) = length x).
