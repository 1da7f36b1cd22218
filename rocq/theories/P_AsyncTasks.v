(** Property theorems C14 and C17: the asynchronous task manager. *)
From Verif Require Import Prelude Table AsyncTasks AsyncTasksSpec AsyncTasksProofs.
Open Scope N_scope.

(** C14: scheduling, cancelling and picking always return. *)
Theorem C14_async_operations_return : forall s o, reachable s -> step s o <> None.
Proof. exact step_total. Qed.
Print Assumptions C14_async_operations_return.

(** C14: an accepted task gets a non-zero identifier that no pending task has,
    it becomes pending with what was asked for, and no other task changes. A
    task is refused exactly when 65535 tasks are pending. *)
Theorem C14_async_identifiers_unique :
  forall s u t p c s' id, reachable s -> step s (Schedule u t p c) = Some (s', RId id) ->
  (id = 0 <-> pending_count s = 65535) /\
  (id <> 0 -> 1 <= id <= 65535 /\ (forall x, pending s x -> tid x <> id) /\
    exists x, pending s' x /\ tid x = id /\ time x = t /\ period x = p /\ user x = u /\ cb x = c /\
    (forall y, pending s' y <-> y = x \/ pending s y)) /\
  (id = 0 -> s' = s).
Proof. exact schedule_unique. Qed.
Print Assumptions C14_async_identifiers_unique.

(** C14: the task run is pending, due, and the earliest of the pending ones. *)
Theorem C14_async_runs_earliest_due :
  forall s now s' t, reachable s -> step s (Pick now) = Some (s', RTask (Some t)) ->
  pending s t /\ time t < now /\
  (forall x, pending s x -> x = t \/ time t < time x \/ (time t = time x /\ tid t < tid x)).
Proof. exact pick_some. Qed.
Print Assumptions C14_async_runs_earliest_due.

(** C14: nothing is run only if nothing is due. *)
Theorem C14_async_idle_only_if_nothing_due :
  forall s now s', reachable s -> step s (Pick now) = Some (s', RTask None) ->
  s' = s /\ forall x, pending s x -> now <= time x.
Proof. exact pick_none. Qed.
Print Assumptions C14_async_idle_only_if_nothing_due.

(** C14: in any history, no one-shot task is run twice. *)
Theorem C14_async_one_shot_once :
  forall ops s rs, run init ops = Some (s, rs) -> NoDup (one_shots_ran rs).
Proof. exact one_shot_once. Qed.
Print Assumptions C14_async_one_shot_once.

(** C14: cancelling reports whether the task was pending, and removes it alone. *)
Theorem C14_async_cancel_exact :
  forall s id s' b, reachable s -> step s (Cancel id) = Some (s', RBool b) ->
  (b = true <-> exists t, pending s t /\ tid t = id) /\
  (forall t, pending s' t <-> pending s t /\ tid t <> id).
Proof. exact cancel_returns. Qed.
Print Assumptions C14_async_cancel_exact.

(** C14: a task cancelled before it was picked is not run by any continuation,
    even if its identifier is given out again. *)
Theorem C14_async_cancelled_never_runs :
  forall s id t s1 ops s2 rs, reachable s -> pending s t -> tid t = id ->
  step s (Cancel id) = Some (s1, RBool true) -> run s1 ops = Some (s2, rs) ->
  forall x, In x (flat_map ran rs) -> ser x <> ser t.
Proof. exact cancelled_never_runs. Qed.
Print Assumptions C14_async_cancelled_never_runs.

(** C14: a pending task stays pending until it is run or cancelled. *)
Theorem C14_async_not_lost :
  forall s o s' r t, reachable s -> step s o = Some (s', r) -> pending s t ->
  pending s' t \/ In t (ran r) \/
  (exists id, o = Cancel id /\ tid t = id) \/ (exists u, o = CancelUser u) \/ o = Stop.
Proof. exact not_lost. Qed.
Print Assumptions C14_async_not_lost.

(** C17, what holds always: every pending task of the user is cancelled, and no
    task becomes pending. *)
Theorem C17_cancel_user_complete_partial :
  forall s u s' b, reachable s -> step s (CancelUser u) = Some (s', RBool b) ->
  forall t, pending s' t -> user t <> u /\ pending s t.
Proof. exact cancel_user_complete. Qed.
Print Assumptions C17_cancel_user_complete_partial.

(** C17, the full statement, for histories that cancel by user only. *)
Theorem C17_cancel_user_exact_without_cancel_partial :
  forall ops s rs u s' b, run init ops = Some (s, rs) ->
  forallb (fun o => negb (is_cancel o)) ops = true ->
  step s (CancelUser u) = Some (s', RBool b) ->
  forall t, pending s' t <-> pending s t /\ user t <> u.
Proof. exact cancel_user_no_cancel. Qed.
Print Assumptions C17_cancel_user_exact_without_cancel_partial.

(** C17, the full statement, until the identifiers wrap around. *)
Theorem C17_cancel_user_exact_until_wrap_partial :
  forall ops s rs u s' b, run init ops = Some (s, rs) -> accepted_count rs <= 65535 ->
  step s (CancelUser u) = Some (s', RBool b) ->
  forall t, pending s' t <-> pending s t /\ user t <> u.
Proof. exact cancel_user_no_wrap. Qed.
Print Assumptions C17_cancel_user_exact_until_wrap_partial.

(** C17 is false: once identifiers have wrapped around, cancelling the tasks of
    user 1 cancels a task of user 2. *)
Theorem C17_cancel_user_only_that_user_refuted :
  exists s t s', reachable s /\ pending s t /\ user t = 2 /\
  step s (CancelUser 1) = Some (s', RBool true) /\ ~ pending s' t.
Proof. exact stale_witness. Qed.
Print Assumptions C17_cancel_user_only_that_user_refuted.
