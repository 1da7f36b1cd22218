(** Vocabulary of the property about the interval of periodic advertising: from the commands
    so far, when it was enabled for a set, with which interval, and what was sent since. *)
From Verif Require Import Prelude Address Rpa Table LeTypes LeAdvertise LeHost LeHistory LeFilterSpec LeTimeSpec LePaceSpec.
Open Scope N_scope.

(** When periodic advertising of the set [x] was enabled, if it still is *)
Fixpoint train_since (x : N) (h : list entry) : option N :=
  match h with
  | [] => None
  | e :: h =>
      match what e, status_of e with
      | Command Reset, _ => None
      | Command ClearSets, Some SUCCESS => None
      | Command (RemoveSet y), Some SUCCESS => if y =? x then None else train_since x h
      | Command (SetPeriodicEnable on _ y), Some SUCCESS => if y =? x then (if on then Some (at_time e) else None) else train_since x h
      | _, _ => train_since x h
      end
  end.

(** The largest interval the host allows for it *)
Fixpoint train_interval_given (x : N) (h : list entry) : N :=
  match h with
  | [] => 0
  | e :: h =>
      match what e, status_of e with
      | Command Reset, _ => 0
      | Command ClearSets, Some SUCCESS => 0
      | Command (RemoveSet y), Some SUCCESS => if y =? x then 0 else train_interval_given x h
      | Command (SetPeriodicParameters y _ imax), Some SUCCESS => if y =? x then imax else train_interval_given x h
      | _, _ => train_interval_given x h
      end
  end.

(** The packets of periodic advertising sent since it was enabled for [x] *)
Fixpoint train_sent (x : N) (h : list entry) : N :=
  match h with
  | [] => 0
  | e :: h =>
      match what e, status_of e with
      | Command (SetPeriodicEnable true _ y), Some SUCCESS => if y =? x then 0 else train_packets (sent e) + train_sent x h
      | _, _ => train_packets (sent e) + train_sent x h
      end
  end.

(** Periodic advertising is enabled for no set but [x] *)
Definition lone_train (x : N) (e : entry) : Prop :=
  match what e with Command (SetPeriodicEnable true _ y) => y = x | _ => True end.
