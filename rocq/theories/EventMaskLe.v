(** Vocabulary: the events of the LE controller allowed by the masks of the host. *)
From Verif Require Import Prelude EventMaskSpec LeTypes.
Open Scope N_scope.

(** The event code, and subevent code for an LE Meta event, of each event of the model *)
Definition code_of (e : event) : N * option N :=
  match e with
  | EvDisconnection _ _ => (0x05, None)
  | EvConnectionComplete _ _ _ _ _ _ _ => (0x3E, Some 0x01)
  | EvReport _ _ _ => (0x3E, Some 0x02)
  | EvEnhancedConnectionComplete _ _ _ _ _ _ _ _ _ => (0x3E, Some 0x0A)
  | EvDirectedReport _ _ => (0x3E, Some 0x0B)
  | EvExtendedReport _ _ _ _ _ _ _ _ _ => (0x3E, Some 0x0D)
  | EvSyncEstablished _ _ _ _ _ => (0x3E, Some 0x0E)
  | EvPeriodicReport _ _ _ => (0x3E, Some 0x0F)
  | EvScanTimeout => (0x3E, Some 0x11)
  | EvSetTerminated _ _ _ _ => (0x3E, Some 0x12)
  | EvScanRequestReceived _ _ => (0x3E, Some 0x13)
  | EvChannelSelection _ => (0x3E, Some 0x14)
  end.

(** The bits the specification assigns to the event are set *)
Definition allowed (s : le) (e : event) : Prop :=
  (exists b, In (fst (code_of e), b) page1_bits /\ N.testbit (event_mask s) b = true) /\
  match snd (code_of e) with
  | Some sub => exists b, In (sub, b) le_bits /\ N.testbit (le_mask s) b = true
  | None => True
  end.
