(** Data over LE links and their supervision: vocabulary of the properties C93 to C97. *)
From Verif Require Import Prelude Table LeData.
From Verif Require Iso.
Open Scope N_scope.

(** * Histories *)

(** One step: when, in which surroundings, with which open links (handle, own address, peer
    address), what happened, and what went out. Histories list the latest step first. *)
Record entry := Entry { at_time : N; seen : env; known : table (N * N); what : op; out : list output }.

Definition open_links (s : state) : table (N * N) := map (fun e => (fst e, (own (snd e), peer (snd e)))) (links s).

(** A connection gets a handle that no other has (C07). *)
Definition sound (s : state) (o : op) : Prop :=
  match o with LinkUp h _ _ _ => lookup (links s) h = None | _ => True end.

Inductive history : list entry -> state -> Prop :=
| history_start : history [] initial
| history_step h s e now o s' out :
    history h s -> sound s o -> step e now s o = Some (s', out) ->
    history (Entry now e (open_links s) o out :: h) s'.

(** The clock does not go back. *)
Fixpoint timely (h : list entry) : Prop :=
  match h with
  | e :: ((e' :: _) as h') => at_time e' <= at_time e /\ timely h'
  | _ => True
  end.

(** Everything that went out, oldest first. *)
Fixpoint said (h : list entry) : list output :=
  match h with [] => [] | e :: h => said h ++ out e end.

Definition is_tick (o : op) : bool := match o with Tick => true | _ => false end.

(** * ACL data *)

Definition acl_or_credit (o : output) : bool :=
  match o with Sent (Frame _ _ (Acl _ _ _)) | Completed _ => true | _ => false end.

(** What a step asks to be sent: an ACL packet of the host for an open link goes to the
    peer; each data packet of the host is credited. *)
Definition asked (e : entry) : list output :=
  match what e with
  | HostAcl p =>
      match lookup (known e) (a_handle p) with
      | Some (a, b) => [Sent (Frame a b (Acl (a_boundary p) (a_broadcast p) (a_data p)))]
      | None => []
      end ++ [Completed (a_handle p)]
  | HostIso p => [Completed (i_handle p)]
  | _ => []
  end.
Fixpoint all_asked (h : list entry) : list output :=
  match h with [] => [] | e :: h => all_asked h ++ asked e end.

(** * Isochronous data *)

(** Core specification Vol 4 Part E 5.4.5: a service data unit is passed in one packet or
    in fragments. The time stamp, the sequence number and the length are in the first. *)
Record unit_ := Unit { u_handle : N; u_stamp : option (list N); u_seq : N; u_chunks : list (list N) }.
Definition whole (u : unit_) : list N := concat (u_chunks u).

Definition bytes2 (n : N) : list N := [n mod 256; n / 256].
Definition header (stamp : option (list N)) (seq size : N) : list N :=
  match stamp with Some t => t | None => [] end ++ bytes2 seq ++ bytes2 size.
Definition stamped (stamp : option (list N)) : bool := match stamp with Some _ => true | None => false end.

Section Fragments.
(** Whether the later fragments have a header too; by the specification they do not. *)
Variable every : bool.
Definition more_header (seq size : N) : list N := if every then header None seq size else [].
Fixpoint fragments (h seq size : N) (l : list (list N)) : list iso_packet :=
  match l with
  | [] => []
  | [d] => [IsoPacket h LAST false (more_header seq size ++ d)]
  | d :: l => IsoPacket h CONTINUATION false (more_header seq size ++ d) :: fragments h seq size l
  end.
Definition packets_of (u : unit_) : list iso_packet :=
  match u_chunks u with
  | [] => []
  | [d] => [IsoPacket (u_handle u) COMPLETE (stamped (u_stamp u)) (header (u_stamp u) (u_seq u) (lenN (whole u)) ++ d)]
  | d :: l => IsoPacket (u_handle u) FIRST (stamped (u_stamp u)) (header (u_stamp u) (u_seq u) (lenN (whole u)) ++ d)
              :: fragments (u_handle u) (u_seq u) (lenN (whole u)) l
  end.
End Fragments.

Definition well_formed (u : unit_) : Prop :=
  u_chunks u <> [] /\ u_seq u < 65536 /\ lenN (whole u) < 4096 /\
  match u_stamp u with Some t => lenN t = 4 | None => True end.

(** The ISO packets of the host, oldest first. *)
Fixpoint host_iso (h : list entry) : list iso_packet :=
  match h with
  | [] => []
  | e :: h => host_iso h ++ match what e with HostIso p => [p] | _ => [] end
  end.
(** The isochronous packets that went to peers. *)
Definition is_pdu (o : output) : bool := match o with Sent (Frame _ _ (IsoPdu _ _ _ _)) => true | _ => false end.
Definition pdus (h : list entry) : list output := filter is_pdu (said h).

(** Where the data of a stream goes: addresses of the link, identifiers, largest SDU. *)
Record way := Way { w_own : N; w_peer : N; w_cig : N; w_cis : N; w_max : N }.
(** The stream with handle [x] is established on an open link. *)
Definition leads (e : entry) (x : N) (w : way) : Prop :=
  exists c a, lookup (Iso.conns (iso (seen e))) x = Some c /\ Iso.c_acl c = Some a /\ Iso.c_cig c = w_cig w /\
    Iso.c_cis c = w_cis w /\ max_sdu_tx c = Some (w_max w) /\ lookup (known e) a = Some (w_own w, w_peer w).
(** At every ISO packet of the host in [es] the stream goes the way [ways] says, and the
    packet fits the buffers. *)
Definition led (ways : N -> way) (es : list entry) : Prop :=
  forall e p, In e es -> what e = HostIso p -> leads e (i_handle p) (ways (i_handle p)) /\ lenN (i_load p) <= iso_length (seen e).
(** What should go to the peer: nothing of units that are too large. *)
Definition carried (ways : N -> way) (u : unit_) : list output :=
  let w := ways (u_handle u) in
  if lenN (whole u) <=? w_max w then [Sent (Frame (w_own w) (w_peer w) (IsoPdu (w_cig w) (w_cis w) (u_seq u) (whole u)))] else [].

(** [o] was made of data of the host: the packet that ends the unit names the stream, and
    the unit is not larger than the stream allows. *)
Definition origin (h : list entry) (o : output) : Prop :=
  exists e p c a own peer q d, In e h /\ what e = HostIso p /\ closes (i_boundary p) = true /\
    lookup (Iso.conns (iso (seen e))) (i_handle p) = Some c /\ (Iso.c_acl c = Some a \/ Iso.c_acl c = None /\ a = 0xffff) /\
    lookup (known e) a = Some (own, peer) /\
    o = Sent (Frame own peer (IsoPdu (Iso.c_cig c) (Iso.c_cis c) q d)) /\ lenN d <= match max_sdu_tx c with Some n => n | None => 0 end.

(** How a host reads a unit (Vol 4 Part E 5.4.5): the sequence number, then the data, which
    must have the length announced in the first packet. *)
Fixpoint rest_of (l : list iso_packet) : option (list N) :=
  match l with
  | [IsoPacket _ LAST false d] => Some d
  | IsoPacket _ CONTINUATION false d :: l => match rest_of l with Some r => Some (d ++ r) | None => None end
  | _ => None
  end.
Definition complete (q0 q1 n0 n1 : N) (d : list N) : option (N * list N) :=
  if lenN d =? (n0 + 256 * n1) mod 4096 then Some (q0 + 256 * q1, d) else None.
Definition host_reads (l : list iso_packet) : option (N * list N) :=
  match l with
  | [IsoPacket _ COMPLETE false (q0 :: q1 :: n0 :: n1 :: d)] => complete q0 q1 n0 n1 d
  | IsoPacket _ FIRST false (q0 :: q1 :: n0 :: n1 :: d) :: l =>
      match rest_of l with Some r => complete q0 q1 n0 n1 (d ++ r) | None => None end
  | _ => None
  end.
Definition iso_out (l : list output) : list iso_packet :=
  flat_map (fun o => match o with IsoToHost p => [p] | _ => [] end) l.

(** The streams with given identifiers. *)
Definition streams_named (g c : N) (i : Iso.state) : list N :=
  keys (filter (fun e => (Iso.c_cig (snd e) =? g) && (Iso.c_cis (snd e) =? c)) (Iso.conns i)).
(** The links between two addresses. *)
Definition links_between (mine theirs : N) (s : state) : list N :=
  keys (filter (fun e => (snd (snd e) =? theirs) && (fst (snd e) =? mine)) (open_links s)).

(** * Supervision *)

(** [e] is a packet from [b] to [a]. *)
Definition heard (a b : N) (e : entry) : Prop :=
  match what e with Receive f => source f = b /\ destination f = a | _ => False end.
(** [e] is such a packet, or makes the link. *)
Definition contact (a b : N) (e : entry) : Prop :=
  heard a b e \/ exists h t, what e = LinkUp h a b t.

(** No link is made between addresses that have one (a controller has one connection to a
    device, Vol 6 Part B 4.5). *)
Definition apart (h : list entry) : Prop :=
  forall e k a b z, In e h -> what e = LinkUp k a b z -> ~ In (a, b) (map snd (known e)).

(** What ends a link: the reason the host is told, and the one the peer is told. *)
Definition ended_by (o : op) : option (N * option N) :=
  match o with
  | Tick => Some (8, Some 8)
  | Disconnect _ r => Some (0x16, Some r)
  | Receive (Frame _ _ (Bye r)) => Some (r, None)
  | _ => None
  end.

(** * Two controllers *)

(** The states, and the ACL packets each host has given and got, oldest first. *)
Record net := Net { left : state; right : state; from_left : list acl_packet; at_right : list acl_packet;
                    from_right : list acl_packet; at_left : list acl_packet }.
(** What is sent arrives at once at the other side (phy_layer.cc, C20). *)
Fixpoint deliver (e : env) (now : N) (l : list output) (s : state) : state * list output :=
  match l with
  | [] => (s, [])
  | Sent f :: l => let '(s, x) := receive e now f s in let '(s, y) := deliver e now l s in (s, x ++ y)
  | _ :: l => deliver e now l s
  end.
(** The hosts exchange data or do nothing. *)
Definition idle (o : op) : bool := match o with HostAcl _ | HostIso _ | Tick => true | _ => false end.
Definition acl_given (o : op) : list acl_packet := match o with HostAcl p => [p] | _ => [] end.
Definition acl_out (l : list output) : list acl_packet := flat_map (fun o => match o with AclToHost p => [p] | _ => [] end) l.
(** A packet as it arrives on the link [h]: "first, not flushable" is only for hosts that
    send (Vol 4 Part E 5.4.2). *)
Definition arrives (h : N) (p : acl_packet) : acl_packet :=
  AclPacket h (if a_boundary p =? 0 then 2 else a_boundary p) (a_broadcast p) (a_data p).
Definition on_link (h : N) (l : list acl_packet) : list acl_packet := filter (fun p => a_handle p =? h) l.

(** [joint now tl tr n]: two connected controllers may have come to [n] at the time [now]
    when the last ticks were at [tl] and [tr]. Neither is without a tick for more than 499
    milliseconds. *)
Inductive joint (k a j b : N) : N -> N -> N -> net -> Prop :=
| joint_start now e e' :
    joint k a j b now now now (Net (link_up e now k a b initial) (link_up e' now j b a initial) [] [] [] [])
| joint_left now now' tl tr n e e' o s out s2 out2 :
    joint k a j b now tl tr n -> now <= now' -> now' <= tl + 499000 -> now' <= tr + 499000 -> idle o = true ->
    step e now' (left n) o = Some (s, out) -> deliver e' now' out (right n) = (s2, out2) ->
    joint k a j b now' (if is_tick o then now' else tl) tr
      (Net s s2 (from_left n ++ acl_given o) (at_right n ++ acl_out out2) (from_right n) (at_left n))
| joint_right now now' tl tr n e e' o s out s2 out2 :
    joint k a j b now tl tr n -> now <= now' -> now' <= tl + 499000 -> now' <= tr + 499000 -> idle o = true ->
    step e now' (right n) o = Some (s, out) -> deliver e' now' out (left n) = (s2, out2) ->
    joint k a j b now' tl (if is_tick o then now' else tr)
      (Net s2 s (from_left n) (at_right n) (from_right n ++ acl_given o) (at_left n ++ acl_out out2)).
