(** Vocabulary for the threads of the asynchronous task manager. *)
From Verif Require Import Prelude Table AsyncTasks AsyncTasksSpec AsyncThreads.
Open Scope N_scope.

Definition treachable (prog : N -> list call) (programs : list (list stmt)) (s : state) : Prop :=
  exists path evs, exec prog (start programs) path = Some (s, evs).

(** How often the callback of task object [n] starts. *)
Definition starts (n : N) (evs : list event) : N :=
  lenN (filter (fun e => match e with EStart m => m =? n | _ => false end) evs).

(** The worker has taken task object [n] off the queue but not yet locked it. *)
Definition about_to_run (s : state) (n : N) : bool :=
  match worker s with WPicked t => ser t =? n | _ => false end.
(** The worker holds the lock of task object [n]: its callback is running or
    waits for the synchronization mutex only. *)
Definition executing (s : state) (n : N) : bool :=
  match worker s with WLocked t | WRun t _ => ser t =? n | _ => false end.
(** The worker is committed to starting the callback of task object [n]. *)
Definition committed (s : state) (n : N) : bool :=
  match worker s with WPicked t | WLocked t => ser t =? n | _ => false end.

Definition finished (c : client) : Prop := busy c = None /\ crit c = None /\ todo c = [].

(** Some thread still has something to do and no thread can move, whatever
    the clock shows. *)
Definition deadlocked (prog : N -> list call) (s : state) : Prop :=
  ((exists c, In c (clients s) /\ ~ finished c) \/ worker s <> WIdle) /\
  forall ch, move prog s ch = None.

(** Some client is cancelling, and has next to remove, the pending task whose
    object is the one of [t]: it waits for the callback of [t] to return. *)
Definition waits_for_callback (s : state) (t : task) : Prop :=
  exists c k id ids x, In c (clients s) /\ busy c = Some (k, id :: ids) /\
    pending (data s) x /\ tid x = id /\ ser x = ser t.

(** A client inside a critical section that needs the internal mutex: it is
    cancelling a task, or about to make a call. *)
Definition calls_in_section (c : client) : Prop :=
  exists ks, crit c = Some ks /\ (busy c <> None \/ ks <> []).

(** Programs. *)
Definition all_calls (P : call -> bool) (st : stmt) : bool :=
  match st with Do k => P k | Sync ks => forallb P ks end.
Definition empty_sync (st : stmt) : bool := match st with Sync (_ :: _) => false | _ => true end.
Definition not_periodic (k : call) : bool := match k with Sched _ _ (Some _) _ => false | _ => true end.
Definition only_schedules (k : call) : bool := match k with Sched _ _ _ _ => true | _ => false end.
