(** Property theorems C15 and C16: threads of the asynchronous task manager. *)
From Verif Require Import Prelude Table AsyncTasks AsyncTasksSpec AsyncThreads AsyncThreadsSpec AsyncThreadsProofs.
Open Scope N_scope.

(** C15 is false: CancelAsyncTask returns true and the callback starts
    afterwards. *)
Theorem C15_cancel_prevents_runs_refuted :
  exists prog ps s t path s1 evs i s2 path2 s3 evs2,
  treachable prog ps s /\ pending (data s) t /\ exec prog s path = Some (s1, evs) /\
  cstep s1 i = Some (s2, [EReturn i (Canc (tid t)) (RBool true)]) /\
  exec prog s2 path2 = Some (s3, evs2) /\ starts (ser t) evs2 = 1.
Proof. exact late_witness. Qed.
Print Assumptions C15_cancel_prevents_runs_refuted.

(** C15 is false: CancelAsyncTask returns while the callback of the task is
    running. *)
Theorem C15_cancel_waits_for_callback_refuted :
  exists prog ps s t path s1 evs i s2 r,
  treachable prog ps s /\ pending (data s) t /\ exec prog s path = Some (s1, evs) /\
  cstep s1 i = Some (s2, [EReturn i (Canc (tid t)) r]) /\
  exists ks, worker s2 = WRun t ks.
Proof. exact running_witness. Qed.
Print Assumptions C15_cancel_waits_for_callback_refuted.

(** C15, what holds: after CancelAsyncTask has returned, the callback of the
    task starts at most once more, and only if the worker was already committed
    to it; otherwise it never starts again. *)
Theorem C15_cancel_bounds_late_runs_partial :
  forall prog ps s t path s1 evs i s2 r path2 s3 evs2,
  treachable prog ps s -> pending (data s) t -> exec prog s path = Some (s1, evs) ->
  cstep s1 i = Some (s2, [EReturn i (Canc (tid t)) r]) -> exec prog s2 path2 = Some (s3, evs2) ->
  starts (ser t) evs2 <= (if committed s2 (ser t) then 1 else 0).
Proof. exact cancel_bounds. Qed.
Print Assumptions C15_cancel_bounds_late_runs_partial.

(** C15, what holds: when a client's cancellation removes a task, its callback
    is not running, and the only way it can still start is that the worker had
    picked the task and not yet locked it. *)
Theorem C15_removal_excludes_running_partial :
  forall prog s i s1 n evs path s2 evs2 ps, treachable prog ps s ->
  cstep s i = Some (s1, evs) -> In (EErase (Some i) n) evs -> exec prog s1 path = Some (s2, evs2) ->
  executing s1 n = false /\ starts n evs2 <= (if about_to_run s1 n then 1 else 0).
Proof. exact erase_bounds. Qed.
Print Assumptions C15_removal_excludes_running_partial.

(** C16 is false: a callback that schedules a task deadlocks with a thread that
    cancels the running task. *)
Theorem C16_no_deadlock_refuted :
  exists prog ps s, treachable prog ps s /\ deadlocked prog s.
Proof. exact (ex_intro _ dead_prog (ex_intro _ late_programs deadlock_callback)). Qed.
Print Assumptions C16_no_deadlock_refuted.

(** C16 is false even if callbacks make no calls. *)
Theorem C16_no_deadlock_with_sections_refuted :
  exists ps s, treachable (fun _ => []) ps s /\ deadlocked (fun _ => []) s.
Proof. exact (ex_intro _ sync_programs deadlock_section). Qed.
Print Assumptions C16_no_deadlock_with_sections_refuted.

(** C16: every deadlock has one of these two shapes. *)
Theorem C16_deadlock_shape_partial :
  forall prog ps s, treachable prog ps s -> deadlocked prog s ->
  exists t, one_shot t = false /\ waits_for_callback s t /\
  ((exists k ks, worker s = WRun t (k :: ks)) \/
   (worker s = WLocked t /\ exists c, In c (clients s) /\ calls_in_section c)).
Proof. exact deadlock_shape. Qed.
Print Assumptions C16_deadlock_shape_partial.

(** C16, what holds: no deadlock if callbacks and critical sections make no
    calls to the manager ... *)
Theorem C16_no_deadlock_without_nested_calls_partial :
  forall prog ps s, treachable prog ps s -> (forall c, prog c = []) ->
  forallb (forallb empty_sync) ps = true -> ~ deadlocked prog s.
Proof. exact no_nested. Qed.
Print Assumptions C16_no_deadlock_without_nested_calls_partial.

(** ... or if there are no periodic tasks ... *)
Theorem C16_no_deadlock_without_periodic_tasks_partial :
  forall prog ps s, treachable prog ps s -> (forall c, forallb not_periodic (prog c) = true) ->
  forallb (forallb (all_calls not_periodic)) ps = true -> ~ deadlocked prog s.
Proof. exact no_periodic. Qed.
Print Assumptions C16_no_deadlock_without_periodic_tasks_partial.

(** ... or if only callbacks cancel tasks. *)
Theorem C16_no_deadlock_without_client_cancel_partial :
  forall prog ps s, treachable prog ps s ->
  forallb (forallb (all_calls only_schedules)) ps = true -> ~ deadlocked prog s.
Proof. exact no_client_cancel. Qed.
Print Assumptions C16_no_deadlock_without_client_cancel_partial.
