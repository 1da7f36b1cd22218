(** Independent description of HCI packets and of their H4 encoding
    (Core specification Vol 4 Part A and Part E section 5.4), not using the
    parser's functions (only the types of its callbacks and of its state). *)
From Verif Require Import Prelude H4.

Inductive hci_packet :=
| Command (op0 op1 : N) (params : list N)
| Acl (h0 h1 : N) (data : list N)
| Sco (h0 h1 : N) (data : list N)
| Event (code : N) (params : list N)
| Iso (h0 h1 flags : N) (data : list N).

(** Length fields: 8 bits for commands, SCO and events, 16 bits for ACL,
    12 bits (plus 4 flag bits) for ISO. *)
Definition wf_packet (p : hci_packet) : bool :=
  match p with
  | Command _ _ params => (lenN params <? 256)%N
  | Acl _ _ data => (lenN data <? 65536)%N
  | Sco _ _ data => (lenN data <? 256)%N
  | Event _ params => (lenN params <? 256)%N
  | Iso _ _ flags data => (lenN data <? 4096)%N && (flags <? 16)%N
  end.

(** Bytes of the packet without the H4 indicator. *)
Definition body (p : hci_packet) : list N :=
  match p with
  | Command op0 op1 params => op0 :: op1 :: lenN params :: params
  | Acl h0 h1 data => h0 :: h1 :: (lenN data mod 256)%N :: (lenN data / 256)%N :: data
  | Sco h0 h1 data => h0 :: h1 :: lenN data :: data
  | Event code params => code :: lenN params :: params
  | Iso h0 h1 flags data =>
      h0 :: h1 :: (lenN data mod 256)%N :: (lenN data / 256 + 16 * flags)%N :: data
  end.

Definition indicator (p : hci_packet) : N :=
  match p with
  | Command _ _ _ => 1 | Acl _ _ _ => 2 | Sco _ _ _ => 3
  | Event _ _ => 4 | Iso _ _ _ _ => 5
  end.

Definition encode (p : hci_packet) : list N := indicator p :: body p.

Definition valid_indicator (b : N) : bool := (1 <=? b)%N && (b <=? 5)%N.

Definition hci_reset : list N := [1; 3; 12; 0]%N.

(** [l] contains the reset sequence. *)
Definition contains_reset (l : list N) : Prop :=
  exists a b, l = a ++ hci_reset ++ b.

(** Streams a synchronised receiver can read completely, with the packets it
    must deliver: packets, and out-of-sync episodes opened by a byte that is
    not an indicator and closed by the first HCI Reset that follows it. *)
Inductive parses : list N -> list hci_packet -> Prop :=
| parses_nil : parses [] []
| parses_packet p s ps :
    wf_packet p = true -> parses s ps -> parses (encode p ++ s) (p :: ps)
| parses_resync g junk s ps :
    valid_indicator g = false ->
    (forall j x, junk ++ hci_reset = j ++ [x] -> ~ contains_reset j) ->
    parses s ps ->
    parses ((g :: junk ++ hci_reset) ++ s) (Command 3 12 [] :: ps).

(** The callback that must receive a packet, with the packet's bytes. *)
Definition deliver (k : hci_packet) : delivery :=
  match k with
  | Command _ _ _ => ToCommand (body k)
  | Acl _ _ _ => ToAcl (body k)
  | Sco _ _ _ => ToSco (body k)
  | Event _ _ => ToEvent (body k)
  | Iso _ _ _ _ => ToIso (body k)
  end.

(** The parser expects a new packet. *)
Definition ready (p : parser) : Prop := st p = HCI_TYPE.
