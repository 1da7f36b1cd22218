(** Vocabulary for the clients of the server. *)
From Coq Require Import String.
From Verif Require Import Prelude Table Address PhyModel PhyModelSpec TestCommand Server.
Open Scope N_scope.

Section Spec.
Context {C : Type}.

(** The hosts that were accepted, with the configuration of the server they came
    to, in order. *)
Definition configured (l : list (service C)) (i : nat) : option C :=
  match nth_error l i with Some (Hci conf) => Some conf | _ => None end.
Fixpoint hosts (l : list (service C)) (o : list (obs C)) : list (N * C) :=
  match o with
  | Accepted c i :: o => match configured l i with Some conf => (c, conf) :: hosts l o | None => hosts l o end
  | _ :: o => hosts l o
  | [] => []
  end.
(** The hosts that were given a controller, with its configuration. *)
Fixpoint controllers (o : list (obs C)) : list (N * C) :=
  match o with
  | Created _ c conf :: o => (c, conf) :: controllers o
  | _ :: o => controllers o
  | [] => []
  end.
(** The hosts whose turn has not come. *)
Definition pending (t : task C) : list (N * C) := match t with Attach c _ conf => [(c, conf)] | _ => [] end.
Definition waiting (s : state C) : list (N * C) :=
  match running s with Some t => pending t | None => [] end ++ flat_map pending (queue s).

(** The socket of the client at the other end of a device. *)
Definition socket (o : owner C) : N := match o with Host c _ _ | Peer c _ | Remote c _ => c end.
(** [d] is a controller, its host has socket [c] and came to server [i]. *)
Definition controller_of (s : state C) (d c : N) (i : nat) : Prop :=
  exists conf, lookup (owners s) d = Some (Host c i conf).

(** What a test client read. *)
Fixpoint texts (c : N) (o : list (obs C)) : list text :=
  match o with
  | Sent x t :: o => if x =? c then t :: texts c o else texts c o
  | _ :: o => texts c o
  | [] => []
  end.
Definition is_answer (t : text) : bool := match t with Answer _ _ => true | _ => false end.

(** A test command that was read and not yet executed. *)
Definition is_command (t : task C) : bool := match t with Command _ _ _ => true | _ => false end.
Definition commands_left (s : state C) : bool :=
  existsb is_command (match running s with Some t => [t] | None => [] end ++ queue s).

(** Test clients come when the main thread has set everything up, and when no
    command of an earlier client is left. *)
Definition patient (s : state C) (e : event) : bool :=
  match e with
  | Connect i _ =>
      match nth_error (servers s) i with
      | Some v => match offers v with
                  | Test => match todo s with [] => open s || negb (commands_left s) | _ => false end
                  | _ => true
                  end
      | None => true
      end
  | _ => true
  end.
(** No client of a link layer server comes. *)
Definition no_link (s : state C) (e : event) : bool :=
  match e with
  | Connect i _ =>
      match nth_error (servers s) i with
      | Some v => match offers v with Link _ => false | _ => true end
      | None => true
      end
  | _ => true
  end.
Fixpoint always (f : state C -> event -> bool) (s : state C) (l : list event) : bool :=
  match l with
  | [] => true
  | e :: l => f s e && match step_event s e with Next s _ => always f s l | _ => true end
  end.

(** A history from the start of the process. *)
Definition history (standard : C) config binds sniffer prefix (l : list event) (s : state C) (o : list (obs C)) : Prop :=
  run_events (start standard config binds sniffer prefix) l = Next s o.

(** The topology that the simulator starts with: channel 0 for BR/EDR, channel 1
    for LE, and two beacons on channel 1. *)
Definition beacon (n : N) : list N := [n; 0; 85; 1; 172; 190].
Definition first_topology (prefix : list N) : model :=
  {| next_dev := 2; next_phy := 2; prefix := prefix; reuse := true;
     layers := [(0, {| ltype := BrEdr; members := [] |}); (1, {| ltype := LowEnergy; members := [0; 1] |})];
     devices := [(0, {| addr := beacon 1; attached := [1] |}); (1, {| addr := beacon 2; attached := [1] |})] |}.
End Spec.
