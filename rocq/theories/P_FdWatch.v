(** Property C107: the watcher of file descriptors calls the right callbacks, and stops. *)
From Verif Require Import Prelude FdWatch FdWatchSpec FdWatchProofs FdWatchCalls FdWatchLive FdWatchStop FdWatchWitness.
From Coq Require Import ZArith.
Open Scope Z_scope.

Theorem C107_called : forall r s a s' e f c, runs start r s -> step s a = Next s' e -> In (Called f c) e -> justified f c r.
Proof. exact called_justified. Qed.
Print Assumptions C107_called.

Theorem C107_called_witness : exists r s s', runs start r s /\ step s Call = Next s' [Called 7 70%N] /\ calls_of r = [(5, 50%N)].
Proof. exact called_witness. Qed.
Print Assumptions C107_called_witness.

Theorem C107_unwatched : forall s t f e r s', runs s ((Unwatch t f, e) :: r) s' -> free_of (watches f) r -> forall x, In x r -> called f x = false.
Proof. exact unwatched. Qed.
Print Assumptions C107_unwatched.

Theorem C107_unwatched_witness : exists r1 r2 t f e s, runs start (r1 ++ (Unwatch t f, e) :: r2) s /\ free_of (watches f) r2 /\ callback_for f r1 = Some 70%N /\ data f r1 = true /\ In (5, 50%N) (calls_of r2).
Proof. exact unwatched_witness. Qed.
Print Assumptions C107_unwatched_witness.

Theorem C107_unwatched_inside_partial : forall r0 s f e r1 e1 r2 s', runs start r0 s -> runs s ((InUnwatch f, e) :: r1 ++ (Done, e1) :: r2) s' -> free_of (watches f) (r1 ++ r2) -> forall x, In x r2 -> called f x = false.
Proof. exact unwatched_inside_start. Qed.
Print Assumptions C107_unwatched_inside_partial.

Theorem C107_unwatched_inside_witness : exists r0 r1 r2 f e e1 s, runs start (r0 ++ (InUnwatch f, e) :: r1 ++ (Done, e1) :: r2) s /\ free_of (watches f) (r1 ++ r2) /\ (exists x, In x r1 /\ called f x = true) /\ data f (r0 ++ (InUnwatch f, e) :: r1 ++ (Done, e1) :: r2) = true /\
  In (5, 50%N) (calls_of r2).
Proof. exact unwatched_inside_witness. Qed.
Print Assumptions C107_unwatched_inside_witness.

Theorem C107_unwatched_inside_refuted : exists r1 r2 f e s, runs start (r1 ++ (InUnwatch f, e) :: r2) s /\ free_of (watches f) r2 /\ exists x, In x r2 /\ called f x = true.
Proof. exact unwatched_round. Qed.
Print Assumptions C107_unwatched_inside_refuted.

Theorem C107_stopped : forall s t e r s', runs s ((Join t, e) :: r) s' -> free_of is_spawn r -> calls_of r = [].
Proof. exact joined. Qed.
Print Assumptions C107_stopped.

Theorem C107_stopped_witness : exists r t e r1 s, runs start (r ++ (Join t, e) :: r1) s /\ free_of is_spawn r1 /\ data 7 r = true /\ callback_for 7 r = Some 70%N /\ (exists x, In x r1 /\ any_watch (fst x) = true).
Proof. exact joined_witness. Qed.
Print Assumptions C107_stopped_witness.

Theorem C107_notices_partial : forall r s f c, runs start r s -> (forall x, In x r -> pipe_made (fst x) = true) -> (forall x, In x r -> valid (fst x) = true) -> quiet s ->
  callback_for f r = Some c -> data f r = true -> exists r' s', runs s r' s' /\ (forall x, In x r' -> watcher_act (fst x) = true) /\ In (f, c) (calls_of r').
Proof. exact notices. Qed.
Print Assumptions C107_notices_partial.

Theorem C107_notices_witness : exists r s, runs start r s /\ (forall x, In x r -> pipe_made (fst x) = true) /\ (forall x, In x r -> valid (fst x) = true) /\ quiet s /\
  callback_for 5 r = Some 50%N /\ data 5 r = true /\ place_of s = Asleep [7] /\ stray s = 0%N.
Proof. exact notices_witness. Qed.
Print Assumptions C107_notices_witness.

Theorem C107_one_thread : forall s a b s1 e1 s2 e2, watcher_act a = true -> watcher_act b = true -> step s a = Next s1 e1 -> step s b = Next s2 e2 -> a = b.
Proof. exact watcher_deterministic. Qed.
Print Assumptions C107_one_thread.

Theorem C107_pipe_refuted : exists r s, runs start r s /\ quiet s /\ (forall x, In x r -> valid (fst x) = true) /\ callback_for 5 r = Some 50%N /\ data 5 r = true /\
  In (Notify 2, [Returned 2 true]) r /\ (forall a, watcher_act a = true -> step s a = Blocked).
Proof. exact pipe_fails. Qed.
Print Assumptions C107_pipe_refuted.

Theorem C107_stop_returns_partial : forall r s t, orderly start r s -> (forall x, In x r -> valid (fst x) = true) -> stopping (clients s t) = true ->
  exists r' s', runs s (r' ++ [(Clear t, [Returned t true])]) s' /\ (forall x, In x r' -> watcher_act (fst x) = true \/ stop_act t (fst x) = true) /\ place_of s' = Off /\ watched s' = [].
Proof. exact stop_returns. Qed.
Print Assumptions C107_stop_returns_partial.

Theorem C107_silent_partial : forall r s t e r' s', orderly start (r ++ [(Clear t, e)]) s -> runs s r' s' -> free_of any_watch r' -> calls_of r' = [].
Proof. exact stopped_silent. Qed.
Print Assumptions C107_silent_partial.

Theorem C107_no_abort_partial : forall r s a, orderly start r s -> careful s a -> step s a <> Terminated.
Proof. exact never_terminated. Qed.
Print Assumptions C107_no_abort_partial.

Theorem C107_no_abort_without_stop_partial : forall r s a, runs start r s -> free_of stops r -> (forall x, In x r -> pipe_made (fst x) = true) -> stops a = false -> pipe_made a = true -> step s a <> Terminated.
Proof. exact never_terminated_without_stop. Qed.
Print Assumptions C107_no_abort_without_stop_partial.

Theorem C107_stop_witness : exists r s, orderly start r s /\ (forall x, In x r -> valid (fst x) = true) /\ clients s 3%N = Joining /\ callback_for 6 r = Some 9%N /\ In (Clear 3, [Returned 3 true]) r.
Proof. exact stop_witness. Qed.
Print Assumptions C107_stop_witness.

Theorem C107_silent_witness : exists r s t e r' s', orderly start (r ++ [(Clear t, e)]) s /\ runs s r' s' /\ free_of any_watch r' /\ data 7 (r ++ (Clear t, e) :: r') = true.
Proof. exact silent_witness. Qed.
Print Assumptions C107_silent_witness.

Theorem C107_defined_partial : forall r s a, runs start r s -> (forall x, In x r -> valid (fst x) = true) -> step s a <> Undefined.
Proof. exact never_undefined. Qed.
Print Assumptions C107_defined_partial.

Theorem C107_unfit_refuted : forall f, in_set f = false -> exists r s, runs start r s /\ free_of stops r /\ (forall x, In x r -> pipe_made (fst x) = true) /\ In (Notify 1, [Returned 1 true]) r /\ step s SetUp = Undefined.
Proof. exact unfit. Qed.
Print Assumptions C107_unfit_refuted.

Theorem C107_pipe_abort_refuted : exists r s t, runs start r s /\ (forall x, In x r -> valid (fst x) = true) /\ free_of in_stop r /\ In (Pipe 1 false, [Returned 1 false]) r /\ step s (Join t) = Terminated.
Proof. exact pipe_fails_stop. Qed.
Print Assumptions C107_pipe_abort_refuted.

Theorem C107_pipe_hangs_refuted : exists r s t, runs start r s /\ clients s t = Joining /\ (forall u, u <> t -> clients s u = Free) /\ (forall x, In x r -> valid (fst x) = true) /\
  forall a, watcher_act a = true \/ stop_act t a = true -> step s a = Blocked.
Proof. exact pipe_fails_hangs. Qed.
Print Assumptions C107_pipe_hangs_refuted.

Theorem C107_watch_while_stopping_refuted : exists r s f c, runs start r s /\ free_of in_stop r /\ (forall x, In x r -> pipe_made (fst x) = true) /\ in_set f = true /\ step s (InWatch f c) = Terminated.
Proof. exact watch_while_stopping. Qed.
Print Assumptions C107_watch_while_stopping_refuted.

Theorem C107_watch_after_stop_refuted : exists r s t, runs start r s /\ (forall x, In x r -> pipe_made (fst x) = true) /\ (forall x, In x r -> valid (fst x) = true) /\ place_of s = Off /\ step s (Spawn t) = Terminated.
Proof. exact watch_after_stop. Qed.
Print Assumptions C107_watch_after_stop_refuted.

Theorem C107_stray_byte_refuted : exists r s, runs start r s /\ quiet s /\ free_of stops r /\ (forall x, In x r -> pipe_made (fst x) = true) /\ stray s = 1%N.
Proof. exact stray_byte. Qed.
Print Assumptions C107_stray_byte_refuted.

Theorem C107_stale_refuted : exists r1 r2 e t f c s1 s s', runs start r1 s1 /\ runs s1 ((Watch t f c, e) :: r2) s /\ data f r1 = false /\ data f (r1 ++ (Watch t f c, e) :: r2) = false /\
  free_of (fun a => match a with Arrive _ true => true | _ => false end) r2 /\ step s Call = Next s' [Called f c].
Proof. exact stale. Qed.
Print Assumptions C107_stale_refuted.

Theorem C107_forgotten_refuted : exists r1 r2 t f c e s, runs start (r1 ++ (Watch t f c, e) :: r2) s /\ quiet s /\ (forall x, In x r2 -> stops (fst x) = false /\ fst x <> Unwatch t f /\ fst x <> InUnwatch f) /\
  In (Notify t, [Returned t true]) r2 /\ callback_for f (r1 ++ (Watch t f c, e) :: r2) = None /\ running s = true.
Proof. exact forgotten. Qed.
Print Assumptions C107_forgotten_refuted.

Theorem C107_second_stop_refuted : exists r s t f c s', runs start (r ++ [(Stop t, [Returned t true])]) s /\ (forall x, In x r -> pipe_made (fst x) = true) /\ step s Call = Next s' [Called f c].
Proof. exact second_stop. Qed.
Print Assumptions C107_second_stop_refuted.
