(** Vocabulary of the property about the interval of an advertising set that advertises on
    its own, so that every advertising packet is one of its events. *)
From Verif Require Import Prelude Address Rpa Table LeTypes LeAdvertise LeHost LeHistory LeFilterSpec LeTimeSpec.
Open Scope N_scope.

(** No set but [x] is ever enabled, legacy advertising is not used *)
Definition lone (x : N) (e : entry) : Prop :=
  match what e with
  | Command (SetAdvEnable _) => False
  | Command (SetExtEnable true l) => forall d, In d l -> en_handle d = x
  | _ => True
  end.

(** No set is ever enabled *)
Definition legacy_only (e : entry) : Prop :=
  match what e with Command (SetExtEnable true _) => False | _ => True end.

(** The interval of legacy advertising, in units of 625 us: the smallest one the host
    allows (1.28 s at first), 10 ms for directed advertising with high duty cycle *)
Fixpoint legacy_interval (h : list entry) : N :=
  match h with
  | [] => 2048
  | e :: h =>
      match what e, status_of e with
      | Command Reset, _ => 2048
      | Command (SetAdvParameters imin _ t _ _ _ _ _), Some SUCCESS => match t with ADV_DIRECT_IND_HIGH => 16 | _ => imin end
      | _, _ => legacy_interval h
      end
  end.

(** When legacy advertising was last enabled or last sent a packet *)
Fixpoint legacy_last (h : list entry) : option N :=
  match h with
  | [] => None
  | e :: h =>
      match what e, status_of e with
      | Command Reset, _ => None
      | Command (SetAdvEnable true), Some SUCCESS => Some (at_time e)
      | Tick, _ => if adverts (sent e) =? 0 then legacy_last h else Some (at_time e)
      | _, _ => legacy_last h
      end
  end.

(** The packets of periodic advertising among the outputs *)
Definition train_packets (out : list output) : N :=
  lenN (filter (fun o => match o with Sent (AirPeriodic _ _ _ _ _) => true | _ => false end) out).
