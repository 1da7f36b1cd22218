(** Which end of a BR/EDR link is the Central. *)
From Verif Require Import Prelude Table Sco Bredr BredrBase BredrSpec BredrPairSpec.
Open Scope N_scope.

(** The role of a controller on its link with [x] *)
Definition role_with (x : addr) (s : bredr) : option role := match acl_of x s with Some (_, c) => Some (acl_role c) | None => None end.
(** Both ends have the link *)
Definition joined (a b : addr) (w : world) : Prop := role_with b (left w) <> None /\ role_with a (right w) <> None.
(** One end is the Central and the other one is not *)
Definition opposite (a b : addr) (w : world) : Prop :=
  (role_with b (left w) = Some CENTRAL /\ role_with a (right w) = Some PERIPHERAL) \/
  (role_with b (left w) = Some PERIPHERAL /\ role_with a (right w) = Some CENTRAL).

(** The peer has agreed to change the roles *)
Definition agrees (p : air) : bool := match content p with SwitchResponse st => st =? SUCCESS | _ => false end.
(** How many such answers are under way *)
Definition agreements (a b : addr) (w : world) : nat := List.length (filter agrees (way_left a w)) + List.length (filter agrees (way_right b w)).

(** ** What the host on the left is told *)
Definition role_event (b : addr) (e : event) : list (status * role) :=
  match e with RoleChange st x r => if list_eqb x b then [(st, r)] else [] | _ => [] end.
Definition roles_told (b : addr) (h : list entry) : list (status * role) :=
  flat_map (fun e => flat_map (fun o => match o with Event v => role_event b v | _ => [] end) (sent e)) (rev h).
Definition roles_to_tell (b : addr) (s : bredr) : list (status * role) :=
  flat_map (fun t => match what_to_do t with Tell v => role_event b v | _ => [] end) (queue s).
(** The last role of a list of events, after [r] *)
Definition last_role (r : role) (l : list (status * role)) : role := last (map snd l) r.

(** The commands that ask for another role, if they were accepted, and the requests of the peer *)
Definition switch_commands (b : addr) (h : list entry) : nat :=
  List.length (filter (fun e => match what e, status_of e with Command (SwitchRole x _), Some st => list_eqb x b && (st =? SUCCESS) | _, _ => false end) h).
Definition switch_requests (b : addr) (h : list entry) : nat :=
  List.length (filter (fun e => match what e with Receive _ p => list_eqb (source p) b && match content p with SwitchRequest => true | _ => false end | _ => false end) h).
(** The links stay open, the left one allows a change of roles or not, and its host is told of
    changes; it has no link with a device without an address *)
Definition role_steady (a b : addr) (allowed : bool) (w : world) : Prop :=
  joined a b w /\ (exists h c, acl_of b (left w) = Some (h, c) /\ N.testbit (acl_policy c) 0 = allowed) /\ unmasked (left w) 0x12 = true /\
  role_with empty_address (left w) = None.
Definition switching (p : air) : bool := match content p with SwitchRequest | SwitchResponse _ => true | _ => false end.
(** No request or answer is under way and all events were sent *)
Definition role_settled (a b : addr) (w : world) : Prop :=
  (forall p, In p (way_right b w) -> switching p = false) /\ (forall p, In p (way_left a w) -> switching p = false) /\ roles_to_tell b (left w) = [].
