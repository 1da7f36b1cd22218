(** Vocabulary of the properties of the scheduler, in terms of the events. *)
From Verif Require Import Prelude Scheduler.
Open Scope N_scope.

(** The number of tasks scheduled *)
Fixpoint scheduled (h : list event) : N :=
  match h with
  | [] => 0
  | EvSchedule _ _ _ _ :: h => scheduled h + 1
  | _ :: h => scheduled h
  end.
(** Fewer tasks than identifiers *)
Definition few (h : list event) : Prop := scheduled h < 4294967295.

(** The time of the latest call of Tick *)
Fixpoint tick_time (h : list event) : Z :=
  match h with [] => 0%Z | EvTick now :: _ => now | _ :: h => tick_time h end.

(** The period of the task [n], if it has one *)
Fixpoint period_of (n : N) (h : list event) : option Z :=
  match h with
  | [] => None
  | EvSchedule m _ _ p :: h => if m =? n then p else period_of n h
  | _ :: h => period_of n h
  end.

(** The identifier of the task [n] *)
Fixpoint id_of (n : N) (h : list event) : option N :=
  match h with
  | [] => None
  | EvSchedule m i _ _ :: h => if m =? n then Some i else id_of n h
  | _ :: h => id_of n h
  end.

(** When the task [n] must run next: at the time it was scheduled for, and for a periodic
    task a period after each tick which ran it *)
Fixpoint due_of (n : N) (h : list event) : option Z :=
  match h with
  | [] => None
  | EvSchedule m _ d _ :: h => if m =? n then Some d else due_of n h
  | EvCancel _ (Some m) :: h => if m =? n then None else due_of n h
  | EvRun m _ :: h => if m =? n then None else due_of n h
  | EvReturn m :: h =>
      if m =? n then match period_of n h with Some p => Some (tick_time h + p)%Z | None => None end
      else due_of n h
  | _ :: h => due_of n h
  end.

Definition no_tick (h : list event) : Prop := forall now, ~ In (EvTick now) h.
Definition runs (n : N) (h : list event) : Prop := exists now, In (EvRun n now) h.
Definition cancelled (n : N) (h : list event) : Prop := exists i, In (EvCancel i (Some n)) h.

(** The time of the tick in progress, if there is one *)
Fixpoint in_tick (h : list event) : option Z :=
  match h with
  | [] => None
  | EvTick now :: _ => Some now
  | EvTickEnd _ :: _ => None
  | _ :: h => in_tick h
  end.

(** The number of runs of the task [n] since the latest call of Tick *)
Fixpoint runs_in_tick (n : N) (h : list event) : N :=
  match h with
  | [] | EvTick _ :: _ => 0
  | EvRun m _ :: h => if m =? n then runs_in_tick n h + 1 else runs_in_tick n h
  | _ :: h => runs_in_tick n h
  end.
