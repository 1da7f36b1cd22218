(** What the event masks of an LE controller may decide: which events the host hears of. *)
From Verif Require Import Prelude Rpa LeTypes LeInitiate LeHost EventMaskLe.
Open Scope N_scope.

(** Two controllers that differ at most in the masks their hosts have set *)
Definition same_but_masks (s t : le) : Prop :=
  t = with_event_mask (event_mask t) (with_event_mask_2 (event_mask_2 t) (with_le_mask (le_mask t) s)).

(** Two commands that differ at most in the masks they set *)
Definition same_command (c d : command) : Prop :=
  match c, d with
  | SetEventMask _, SetEventMask _ => True
  | SetEventMaskPage2 _, SetEventMaskPage2 _ => True
  | LeSetEventMask _, LeSetEventMask _ => True
  | _, _ => c = d
  end.
Definition same_op (o p : op) : Prop :=
  match o, p with Command c, Command d => same_command c d | _, _ => o = p end.
(** Two histories with the same commands, packets and ticks at the same times, but for
    the masks set *)
Definition same_history (h k : list (N * op)) : Prop :=
  Forall2 (fun x y => fst x = fst y /\ same_op (snd x) (snd y)) h k.

(** The commands that change a mask *)
Definition changes_masks (o : op) : bool :=
  match o with
  | Command (SetEventMask _) | Command (SetEventMaskPage2 _) | Command (LeSetEventMask _) | Command Reset => true
  | _ => false
  end.

(** The bit of an event or subevent is set; the codes are all below 64 *)
Definition passes (s : le) (c : N * option N) : bool :=
  match c with
  | (evt, None) => N.testbit (event_mask s) (evt - 1)
  | (evt, Some sub) => N.testbit (event_mask s) (evt - 1) && N.testbit (le_mask s) (sub - 1)
  end.

(** What two hosts must see alike: the packets in the air, the events both let through,
    and, when both let through the events LE Connection Complete, the outcome of each attempt
    to connect. The event LE Enhanced Connection Complete replaces LE Connection Complete when
    the host lets it through, so that the two are not told apart. *)
Inductive view :=
| Packet (p : air)
| Heard (e : event)
| Attempt (st : status) (handle : N) (central : bool) (interval latency supervision : N).

Definition both_hear (s t : le) (e : event) : bool := passes s (code_of e) && passes t (code_of e).
Definition view_of (s t : le) (x : output) : list view :=
  match x with
  | Sent p => [Packet p]
  | Notified (EvConnectionComplete st h c _ i l v) | Notified (EvEnhancedConnectionComplete st h c _ _ _ i l v) =>
      if passes s (62, Some 1) && passes t (62, Some 1) then [Attempt st h c i l v] else []
  | Notified e => if both_hear s t e then [Heard e] else []
  end.
Definition seen_alike (s t : le) (o o' : list output) : Prop :=
  flat_map (view_of s t) o = flat_map (view_of s t) o'.

(** The packets sent *)
Definition packets (o : list output) : list air :=
  flat_map (fun x => match x with Sent p => [p] | Notified _ => [] end) o.

(** What a step makes of the two controllers *)
Definition alike (s t : le) (r q : result) : Prop :=
  match r, q with
  | Ok s' st o, Ok t' st' o' => same_but_masks s' t' /\ st = st' /\ seen_alike s t o o'
  | Abort, Abort => True
  | OutOfBounds, OutOfBounds => True
  | Hang, Hang => True
  | _, _ => False
  end.

(** The host with every bit of its masks set *)
Definition unmasked (s : le) : le :=
  with_event_mask (N.ones 64) (with_event_mask_2 (N.ones 64) (with_le_mask (N.ones 64) s)).

(** The events, but for the two that announce a connection *)
Definition events (o : list output) : list event :=
  flat_map (fun x => match x with
                     | Sent _ => []
                     | Notified (EvConnectionComplete _ _ _ _ _ _ _)
                     | Notified (EvEnhancedConnectionComplete _ _ _ _ _ _ _ _ _) => []
                     | Notified e => [e]
                     end) o.

(** The masks the host has set last, since the last reset. After power-on and reset these are
    0x1FFFFFFFFFFF, none and 0x1F, the defaults of Vol 4, Part E, 7.3.1, 7.3.69 and 7.8.1. *)
Definition masks_after (m : N * N * N) (o : op) : N * N * N :=
  let '(a, b, c) := m in
  match o with
  | Command (SetEventMask x) => (x, b, c)
  | Command (SetEventMaskPage2 x) => (a, x, c)
  | Command (LeSetEventMask x) => (a, b, x)
  | Command Reset => (0x1FFFFFFFFFFF, 0, 0x1F)
  | _ => m
  end.
Definition masks_set (h : list (N * op)) : N * N * N :=
  fold_left (fun m x => masks_after m (snd x)) h (0x1FFFFFFFFFFF, 0, 0x1F).
