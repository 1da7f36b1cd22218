(** Vocabulary for the questions that a host asks about the other end of an LE connection. *)
From Verif Require Import Prelude LeLink LeLinkSpec.
Open Scope N_scope.

Definition other (x : side) : side := match x with Central => Peripheral | Peripheral => Central end.

(** The true answer to a question about a controller *)
Definition true_answer (a : about) (c : command) : list event :=
  match c with
  | ReadRemoteFeatures => [FeaturesComplete SUCCESS (all_features a)]
  | ReadRemoteVersion => [VersionComplete SUCCESS (version a) (manufacturer a) (subversion a)]
  | _ => []
  end.
Definition answered (e : event) : bool := match e with FeaturesComplete _ _ | VersionComplete _ _ _ _ => true | _ => false end.

(** What the host of side [x] ought to be told about [a], the other controller: an answer to
    each of its questions that was accepted, in order. The history has the latest step first. *)
Fixpoint due (x : side) (a : about) (h : list entry) : list event :=
  match h with
  | [] => []
  | e :: h => due x a h ++ match what e with
                           | Host y _ c => if side_eqb x y && (status_of e =? SUCCESS) then true_answer a c else []
                           | Deliver _ _ => []
                           end
  end.
(** The answers that the host of side [x] was given *)
Fixpoint told (x : side) (h : list entry) : list event :=
  match h with
  | [] => []
  | e :: h => told x h ++ (if on_side x (what e) then List.filter answered (events e) else [])
  end.
(** The host of side [x] always had these events enabled *)
Definition listens (x : side) (h : list entry) : Prop :=
  forall e, In e h -> on_side x (what e) = true -> mask_of (what e) M_LE_META = true /\ mask_of (what e) M_REMOTE_VERSION = true.

(** What the host of side [x] was last told about the PHYs: LE 1M before any event, Vol 6, Part B, 4.6 *)
Fixpoint last_phys (ev : list event) (before : phy * phy) : phy * phy :=
  match ev with
  | [] => before
  | PhyUpdateComplete tx rx :: ev => last_phys ev (tx, rx)
  | _ :: ev => last_phys ev before
  end.
Fixpoint told_phys (x : side) (h : list entry) : phy * phy :=
  match h with
  | [] => (LE_1M, LE_1M)
  | e :: h => if on_side x (what e) then last_phys (events e) (told_phys x h) else told_phys x h
  end.

(** The feature bits that a host controls: connected isochronous streams, connection
    subrating and channel sounding (Vol 6, Part B, 4.6) *)
Definition host_controlled (bit : N) : Prop := bit = 32 \/ bit = 38 \/ bit = 47.

(** The settings of a side *)
Definition setting (x : side) (c p : settings) : settings := match x with Central => c | Peripheral => p end.

(** The commands that ask, or that only check their parameters *)
Definition question (c : command) : bool :=
  match c with ReadRemoteFeatures | ReadRemoteVersion | SetDataLength _ _ | ReadPhy | ReadRemoteTransmitPower _ | SetTransmitPowerReporting _ _ => true | _ => false end.
