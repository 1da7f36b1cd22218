(** Histories of sockets used as witnesses, and the ones that break the properties. *)
From Verif Require Import Prelude Table Socket SocketSpec.
Open Scope N_scope.

Fixpoint run (l : list op) (h : list (op * list effect)) (s : state) : option (list (op * list effect) * state) :=
  match l with
  | [] => Some (h, s)
  | o :: l' => match step s o with Next s' out => run l' ((o, out) :: h) s' | _ => None end
  end.

Lemma run_history l : forall h s h' s', run l h s = Some (h', s') -> history h s -> history h' s'.
Proof.
  induction l as [|o l IH]; intros h s h' s' R H; cbn in R; [injection R as <- <-; exact H|].
  destruct (step s o) as [s1 out| |] eqn:S; try discriminate. exact (IH _ _ _ _ R (history_step _ _ _ _ _ H S)).
Qed.

Ltac ran l := apply (run_history l [] start); [vm_compute; reflexivity|constructor].

(** Two sockets, one is closed and its descriptor is used again by other code; a read of the
    other is interrupted *)
Definition two : list op :=
  [Make 1 (Some 5); Make 2 (Some 6); Watch 1 true; Watch 2 true; Close 1 [Got 0] (Got 0); OtherOpen 5;
   Close 1 [Got 0] (Got 0); Send 1 [Got 3]].

Lemma files_witness : exists h s s' , history h s /\ still h
  /\ born h 0 /\ closes 0 h = 1%nat /\ holds h 1 = None /\ has (socks s) 1 = true
  /\ born h 1 /\ closes 1 h = O /\ holds h 2 = Some 1 /\ file_at s 5 = Some 2 /\ asked h 2 = true
  /\ step s (Ready 6) = Next s [Called 2 6] /\ step s (Ready 5) = Stuck
  /\ step s (Recv 2 [Failed EINTR; Got 7]) = Next s' [Sys CRead 6 (Some 1); Sys CRead 6 (Some 1); Returned (Got 7)].
Proof.
  eexists _, _, _. split; [ran two|].
  split; [intros e E; repeat destruct E as [<-|E]; try reflexivity; contradiction|].
  split; [vm_compute; auto|]. split; [reflexivity|]. split; [reflexivity|]. split; [reflexivity|].
  split; [vm_compute; auto|]. repeat (split; [vm_compute; reflexivity|]). vm_compute; reflexivity.
Qed.

(** A moved file is closed once, by its new owner *)
Lemma moved_witness : exists h s, history h s /\ born h 0 /\ closes 0 h = O /\ holds h 1 = None /\ holds h 2 = Some 0
  /\ exists s' f, step s (Destroy 2 [Got 0] (Got 0)) = Next s' [Sys CShutdown f (Some 0); Sys CClose f (Some 0)].
Proof.
  eexists _, _. split; [ran [Make 1 (Some 5); Move 1 2; Destroy 1 [Got 0] (Got 0)]|].
  split; [vm_compute; auto|]. repeat (split; [vm_compute; reflexivity|]). do 2 eexists. vm_compute; reflexivity.
Qed.

(** A socket that is watched, moved, and whose old object is gone: the callback has the
    address of the old one *)
Lemma moved_callback : exists h s f, history h s /\ holds h 2 = Some 0 /\ file_at s f = Some 0 /\ step s (Ready f) = Undefined.
Proof.
  eexists _, _, 5. split; [ran [Make 1 (Some 5); Watch 1 true; Move 1 2; Destroy 1 [Got 0] (Got 0)]|].
  repeat (split; [vm_compute; reflexivity|]). vm_compute; reflexivity.
Qed.

(** A callback asked for on a closed socket *)
Lemma closed_watch : exists h s, history h s /\ still h /\ has (socks s) 1 = true /\ holds h 1 = None /\ step s (Watch 1 true) = Undefined.
Proof.
  eexists _, _. split; [ran [Make 1 (Some 5); Close 1 [Got 0] (Got 0)]|].
  split; [intros e E; repeat destruct E as [<-|E]; try reflexivity; contradiction|].
  repeat (split; [vm_compute; reflexivity|]). vm_compute; reflexivity.
Qed.

(** When the first attempt fails because no thread can be started, the next ones do too *)
Lemma failed_watch : exists h s, history h s /\ still h /\ holds h 1 = Some 0
  /\ (exists s1, step s (Watch 1 false) = Next s1 [Says false] /\ forall ok, step s1 (Watch 1 ok) = Next s1 [Says false]).
Proof.
  eexists _, _. split; [ran [Make 1 (Some 5)]|].
  split; [intros e E; repeat destruct E as [<-|E]; try reflexivity; contradiction|].
  split; [reflexivity|]. eexists. split; [vm_compute; reflexivity|]. intro ok. vm_compute; reflexivity.
Qed.

Lemma connected_witness : exists h s s1 s2 s3, history h s /\ holds h 1 = Some 0 /\ errno s <> EAGAIN
  /\ step s (Connected 1 (Got 1)) = Next s1 [Sys CPeek 5 (Some 0); Says true]
  /\ step s (Connected 1 (Failed EAGAIN)) = Next s2 [Sys CPeek 5 (Some 0); Says true]
  /\ step s (Connected 1 (Got 0)) = Next s3 [Sys CPeek 5 (Some 0); Says false].
Proof.
  eexists _, _, _, _, _. split; [ran [Make 1 (Some 5)]|].
  split; [reflexivity|]. split; [discriminate|]. repeat (split; [vm_compute; reflexivity|]). vm_compute; reflexivity.
Qed.

(** A read found nothing, then the peer closes: it is still said to be there *)
Lemma connected_stale : exists h s s', history h s /\ holds h 1 = Some 0
  /\ step s (Connected 1 (Got 0)) = Next s' [Sys CPeek 5 (Some 0); Says true].
Proof.
  eexists _, _, _. split; [ran [Make 1 (Some 5); Recv 1 [Failed EAGAIN]]|].
  split; [reflexivity|]. vm_compute; reflexivity.
Qed.

Lemma connects_witness : exists w, established w /\ connect w = Open 3 /\ n_poll w = [Failed EINTR; Got 1].
Proof.
  exists (Network (Some 3) true (Failed EINPROGRESS) [Failed EINTR; Got 1] true true 0).
  split; [|split; reflexivity]. repeat split; cbn.
  - now exists 3.
  - exists EINPROGRESS. left. auto.
  - exists 0, 1%nat. reflexivity.
Qed.

(** Descriptor 0: nothing is connected, and the socket is returned open *)
Lemma connects_zero : exists w, connect w = Open 0 /\ ~ established w.
Proof.
  exists (Network (Some 0) true (Failed 111) [] true true 0). split; [reflexivity|].
  intros (_ & _ & (e & [(E & [X|X])|E]) & _); cbn in E; try discriminate; injection E as <-; discriminate.
Qed.
