(** What the host and the controller of a socket connection see. *)
From Verif Require Import Prelude H4 H4Spec Transport.
Open Scope N_scope.

(** The bytes that the host wrote before it closed its end or lost the connection *)
Fixpoint written (l : list op) : list N :=
  match l with
  | [] => []
  | HostWrites b :: l => b ++ written l
  | HostCloses :: _ | Breaks _ :: _ => []
  | _ :: l => written l
  end.
(** The host has closed its end, or the connection broke *)
Definition hangs (o : op) : bool := match o with HostCloses | Breaks _ => true | _ => false end.
Definition breaks (o : op) : bool := match o with Breaks _ => true | _ => false end.

(** The packets given to the controller, those that the controller has for the host while the
    connection is up, the bytes the host receives, and the times the device is removed *)
Definition handed (l : list output) : list delivery := flat_map (fun o => match o with Handed d => [d] | _ => [] end) l.
Definition offered (l : list output) : list (N * list N) := flat_map (fun o => match o with Offered t b => [(t, b)] | _ => [] end) l.
Definition dropped (l : list output) : list (N * list N) := flat_map (fun o => match o with Dropped t b => [(t, b)] | _ => [] end) l.
Definition received (l : list output) : list N := flat_map (fun o => match o with Took b => b | _ => [] end) l.
Definition removals (l : list output) : nat := List.length (filter (fun o => match o with Removed => true | _ => false end) l).

(** Packets that a host may send *)
Definition from_host (p : hci_packet) : bool := match p with Event _ _ => false | _ => true end.

(** Every write takes all that it is given *)
Definition spacious (takes : nat -> nat -> taken) : Prop := forall n size, exists k, takes n size = Takes k /\ (size <= k)%nat.
