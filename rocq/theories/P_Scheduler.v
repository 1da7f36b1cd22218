(** C18: the tasks scheduled inside a controller run when they are due, in the order of
    their times, and not after they were cancelled.
    The events ([EvSchedule n i due p]: the task [n] was scheduled for the time [due] with
    the period [p] and got the identifier [i]; [EvRun n now]: its callback was called; ...) are
    those of Scheduler.v; [due_of], [id_of], [period_of], [in_tick] and [few] are defined on
    the events in SchedulerSpec.v.
    The theorems about identifiers are partial: they assume that fewer than 2^32-1 tasks
    were scheduled ([few]), as the identifiers are 32 bits numbers which start again;
    [C18_identifiers_refuted] shows that this matters. *)
From Verif Require Import Prelude Scheduler SchedulerSpec SchedulerProofs SchedulerWitness.
Open Scope N_scope.

(** A task runs only during a tick, at or after the time it is due, and no task which
    must run is due earlier; of those due at the same time the first scheduled runs first. *)
Theorem C18_runs_in_time_order_partial : forall h s n now,
  history (EvRun n now :: h) s -> few h ->
  in_tick h = Some now /\
  exists d, due_of n h = Some d /\ (d <= now)%Z /\
    forall m d', due_of m h = Some d' -> (d < d')%Z \/ (d = d' /\ n <= m).
Proof. exact run_due. Qed.

(** When a tick ends nothing is left which was due. *)
Theorem C18_tick_complete_partial : forall h s now,
  history (EvTickEnd now :: h) s -> few h ->
  in_tick h = Some now /\ forall m d, due_of m h = Some d -> (now < d)%Z.
Proof. exact tick_end. Qed.

(** A task scheduled for a time not after that of a tick has run when the tick ends, unless it was cancelled. *)
Theorem C18_due_task_runs_partial : forall h2 h1 s n i d p now,
  history (EvTickEnd now :: h2 ++ EvSchedule n i d p :: h1) s -> few (h2 ++ EvSchedule n i d p :: h1) ->
  (d <= now)%Z -> ~ cancelled n h2 -> runs n h2.
Proof.
  exact (fun h2 h1 s n i d p now H F L C =>
    match runs_dec n h2 with or_introl R => R | or_intror R => False_ind _ (run_by_tick_end h2 h1 s n i d p now H F L C R) end).
Qed.

(** A task which is not periodic runs at most once. *)
Theorem C18_one_shot_runs_once_partial : forall n h2 now now' h1 s,
  history (EvRun n now' :: h2 ++ EvRun n now :: h1) s -> few (h2 ++ EvRun n now :: h1) ->
  period_of n (h2 ++ EvRun n now :: h1) <> None.
Proof. exact one_shot_once. Qed.

(** A periodic task runs at most once in a tick, when its period is not zero. *)
Theorem C18_periodic_once_per_tick_partial : forall n q h2 now now' h1 s,
  history (EvRun n now' :: h2 ++ EvRun n now :: h1) s -> few (h2 ++ EvRun n now :: h1) ->
  period_of n (h2 ++ EvRun n now :: h1) = Some q -> (0 < q)%Z -> ~ no_tick h2.
Proof. exact periodic_once_per_tick. Qed.

(** Cancelling the identifier of a task which is waiting removes that task... *)
Theorem C18_cancel_removes_partial : forall h s n i d, history h s -> few h -> id_of n h = Some i -> due_of n h = Some d ->
  forall s' e, step s (Cancel i) = Next s' e -> e = EvCancel i (Some n).
Proof. exact cancel_waiting. Qed.

(** ... and no other, ... *)
Theorem C18_cancel_removes_only_partial : forall h s i n, history (EvCancel i (Some n) :: h) s -> few h ->
  id_of n h = Some i /\ exists d, due_of n h = Some d.
Proof. exact cancelled_is_waiting. Qed.

(** ... and a task removed never runs again. *)
Theorem C18_cancelled_never_runs_partial : forall i n now h2 h1 s,
  few (h2 ++ EvCancel i (Some n) :: h1) -> ~ history (EvRun n now :: h2 ++ EvCancel i (Some n) :: h1) s.
Proof. exact cancelled_never_runs. Qed.

(** A task is scheduled for the time given, from now, and its identifier is not zero, the invalid one. *)
Theorem C18_schedule_event : forall s delay p s' e, step s (Schedule delay p) = Next s' e ->
  exists i, e = EvSchedule (count s) i (clock s + delay) p /\ i <> 0.
Proof. exact schedule_event. Qed.

(** Two tasks do not have the same identifier. *)
Theorem C18_identifiers_unique_partial : forall h s n m i, history h s -> few h -> id_of n h = Some i -> id_of m h = Some i -> n = m.
Proof. exact ids_unique. Qed.

(** The search for a free identifier ends, whatever was scheduled before. *)
Theorem C18_never_stuck : forall h s o, history h s -> N.of_nat (length (queue s)) + 2 <= 4294967296 -> step s o <> Stuck.
Proof. exact never_stuck. Qed.

(** A history with all of this *)
Theorem C18_reachable : exists s, history
  [EvTickEnd 35; EvReturn 1; EvRun 1 35; EvTick 35; EvClock 35; EvTickEnd 25; EvReturn 3; EvRun 3 25; EvReturn 0; EvRun 0 25; EvReturn 1;
   EvSchedule 3 4 25 None; EvRun 1 25; EvTick 25; EvClock 25; EvCancel 3 (Some 2);
   EvSchedule 2 3 10 None; EvSchedule 1 2 10 (Some 7%Z); EvSchedule 0 1 20 None] s.
Proof. exact usual_history. Qed.

(** "A cancelled task does not run again" does not hold of a periodic task cancelled by its own callback. *)
Theorem C18_self_cancel_refuted : exists h2 h1 s n i now now' now'',
  history (EvRun n now' :: EvTick now'' :: h2 ++ EvCancel i None :: EvRun n now :: h1) s /\ id_of n h1 = Some i.
Proof. exact self_cancel. Qed.

(** "A tick ends" does not hold with a period of zero: the task runs any number of times in the same tick. *)
Theorem C18_zero_period_refuted : forall k, exists h s, history h s /\ runs_in_tick 0 h = k /\ period_of 0 h = Some 0%Z /\
  s = Sched [Task 0 1 (Some 0%Z) 0] 2 0 (Some 0%Z) None 1.
Proof. exact zero_period. Qed.

(** "Two waiting tasks do not have the same identifier" does not hold after 2^32 tasks: a
    new task may be given that of a periodic task whose callback is running. *)
Theorem C18_identifiers_refuted : exists h s n m i d d', history h s /\ n <> m /\
  id_of n h = Some i /\ id_of m h = Some i /\ due_of n h = Some d /\ due_of m h = Some d'.
Proof. exact identifiers_clash. Qed.

Print Assumptions C18_runs_in_time_order_partial.
Print Assumptions C18_tick_complete_partial.
Print Assumptions C18_due_task_runs_partial.
Print Assumptions C18_one_shot_runs_once_partial.
Print Assumptions C18_periodic_once_per_tick_partial.
Print Assumptions C18_cancel_removes_partial.
Print Assumptions C18_cancel_removes_only_partial.
Print Assumptions C18_cancelled_never_runs_partial.
Print Assumptions C18_schedule_event.
Print Assumptions C18_identifiers_unique_partial.
Print Assumptions C18_never_stuck.
Print Assumptions C18_self_cancel_refuted.
Print Assumptions C18_zero_period_refuted.
Print Assumptions C18_identifiers_refuted.
