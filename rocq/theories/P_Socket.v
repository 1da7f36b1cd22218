(** Property C113: a socket works on its own file, which is closed once, and calls back its own user. *)
From Verif Require Import Prelude Table Socket SocketSpec SocketProofs SocketWitness.
Open Scope N_scope.

Theorem C113_own_file : forall h s o s' out c f x a, history h s -> step s o = Next s' out -> about o = Some a ->
  In (Sys c f x) out -> exists i, x = Some i /\ holds h a = Some i.
Proof. exact own_file. Qed.
Print Assumptions C113_own_file.

Theorem C113_one_holder : forall h s a b i, history h s -> holds h a = Some i -> holds h b = Some i -> a = b.
Proof. exact one_holder. Qed.
Print Assumptions C113_one_holder.

Theorem C113_closed_once : forall h s i, history h s -> born h i ->
  (closes i h = O /\ exists a, holds h a = Some i) \/ (closes i h = 1%nat /\ forall a, holds h a <> Some i).
Proof. exact closed_once. Qed.
Print Assumptions C113_closed_once.

Theorem C113_after_close : forall h s a, history h s -> has (socks s) a = true -> holds h a = None -> forall l k,
  step s (Recv a l) = Next s [Returned (Got 0)]
  /\ (exists s', step s (Send a l) = Next s' [Nowhere CSend; Returned (Failed EBADF)])
  /\ step s (Connected a k) = Next s [Says false] /\ step s (Close a l k) = Next s [].
Proof. exact after_close. Qed.
Print Assumptions C113_after_close.

Theorem C113_own_callbacks_partial : forall h s f, history h s -> still h ->
  match step s (Ready f) with
  | Next s' out => s' = s /\ exists a i, out = [Called a f] /\ asked h a = true /\ holds h a = Some i /\ file_at s f = Some i
  | Undefined => False
  | Stuck => forall a i, asked h a = true -> holds h a = Some i -> file_at s f <> Some i
  end.
Proof. exact own_callbacks. Qed.
Print Assumptions C113_own_callbacks_partial.

Theorem C113_connected_partial : forall h s a i k s' out b, history h s -> holds h a = Some i -> (errno s <> EAGAIN \/ k <> Got 0) ->
  (forall n, k = Got n -> n <= 1) -> step s (Connected a k) = Next s' out -> In (Says b) out ->
  (b = true <-> k = Got 1 \/ k = Failed EAGAIN).
Proof. exact connected_exact. Qed.
Print Assumptions C113_connected_partial.

Theorem C113_connects_partial : forall w f, f <> 0 -> (connect w = Open f <-> n_socket w = Some f /\ established w).
Proof. exact connects. Qed.
Print Assumptions C113_connects_partial.

Theorem C113_interrupted : forall l r n, settle l = Some (r, n) <-> l = repeat (Failed EINTR) n ++ [r] /\ r <> Failed EINTR.
Proof. exact interrupted. Qed.
Print Assumptions C113_interrupted.

Theorem C113_files_witness : exists h s s', history h s /\ still h
  /\ born h 0 /\ closes 0 h = 1%nat /\ holds h 1 = None /\ has (socks s) 1 = true
  /\ born h 1 /\ closes 1 h = O /\ holds h 2 = Some 1 /\ file_at s 5 = Some 2 /\ asked h 2 = true
  /\ step s (Ready 6) = Next s [Called 2 6] /\ step s (Ready 5) = Stuck
  /\ step s (Recv 2 [Failed EINTR; Got 7]) = Next s' [Sys CRead 6 (Some 1); Sys CRead 6 (Some 1); Returned (Got 7)].
Proof. exact files_witness. Qed.
Print Assumptions C113_files_witness.

Theorem C113_moved_witness : exists h s, history h s /\ born h 0 /\ closes 0 h = O /\ holds h 1 = None /\ holds h 2 = Some 0
  /\ exists s' f, step s (Destroy 2 [Got 0] (Got 0)) = Next s' [Sys CShutdown f (Some 0); Sys CClose f (Some 0)].
Proof. exact moved_witness. Qed.
Print Assumptions C113_moved_witness.

Theorem C113_connected_witness : exists h s s1 s2 s3, history h s /\ holds h 1 = Some 0 /\ errno s <> EAGAIN
  /\ step s (Connected 1 (Got 1)) = Next s1 [Sys CPeek 5 (Some 0); Says true]
  /\ step s (Connected 1 (Failed EAGAIN)) = Next s2 [Sys CPeek 5 (Some 0); Says true]
  /\ step s (Connected 1 (Got 0)) = Next s3 [Sys CPeek 5 (Some 0); Says false].
Proof. exact connected_witness. Qed.
Print Assumptions C113_connected_witness.

Theorem C113_connects_witness : exists w, established w /\ connect w = Open 3 /\ n_poll w = [Failed EINTR; Got 1].
Proof. exact connects_witness. Qed.
Print Assumptions C113_connects_witness.

Theorem C113_moved_callback_refuted : exists h s f, history h s /\ holds h 2 = Some 0 /\ file_at s f = Some 0 /\ step s (Ready f) = Undefined.
Proof. exact moved_callback. Qed.
Print Assumptions C113_moved_callback_refuted.

Theorem C113_closed_watch_refuted : exists h s, history h s /\ still h /\ has (socks s) 1 = true /\ holds h 1 = None /\ step s (Watch 1 true) = Undefined.
Proof. exact closed_watch. Qed.
Print Assumptions C113_closed_watch_refuted.

Theorem C113_failed_watch_refuted : exists h s, history h s /\ still h /\ holds h 1 = Some 0
  /\ (exists s1, step s (Watch 1 false) = Next s1 [Says false] /\ forall ok, step s1 (Watch 1 ok) = Next s1 [Says false]).
Proof. exact failed_watch. Qed.
Print Assumptions C113_failed_watch_refuted.

Theorem C113_connected_stale_refuted : exists h s s', history h s /\ holds h 1 = Some 0
  /\ step s (Connected 1 (Got 0)) = Next s' [Sys CPeek 5 (Some 0); Says true].
Proof. exact connected_stale. Qed.
Print Assumptions C113_connected_stale_refuted.

Theorem C113_connects_zero_refuted : exists w, connect w = Open 0 /\ ~ established w.
Proof. exact connects_zero. Qed.
Print Assumptions C113_connects_zero_refuted.

Theorem C113_timeout_refuted : forall n, exists w, settle (n_poll w) = Some (Got 0, n) /\ connect w = Closed.
Proof. exact connects_interrupted. Qed.
Print Assumptions C113_timeout_refuted.
