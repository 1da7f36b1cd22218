(** Histories of the watcher of file descriptors. *)
From Verif Require Import Prelude FdWatch FdWatchSpec FdWatchProofs FdWatchCalls FdWatchLive FdWatchStop.
From Coq Require Import ZArith.
Open Scope Z_scope.

Fixpoint perform (s : state) (l : list act) : option (run * state) :=
  match l with
  | [] => Some ([], s)
  | a :: l => match step s a with Next s1 e => match perform s1 l with Some (r, s') => Some ((a, e) :: r, s') | None => None end | _ => None end
  end.
Definition play (l : list act) : run * state := match perform start l with Some p => p | None => ([], start) end.
Definition plays (l : list act) : bool := match perform start l with Some _ => true | None => false end.
Lemma perform_runs l : forall s r s', perform s l = Some (r, s') -> runs s r s'.
Proof.
  induction l as [|a l IH]; cbn [perform]; intros s r s' E; [injection E as <- <-; constructor|].
  destruct (step s a) as [s1 e| | |] eqn:S; try discriminate. destruct (perform s1 l) as [[r1 s2]|] eqn:P; [|discriminate]. injection E as <- <-. econstructor; eauto.
Qed.
Lemma play_runs l : plays l = true -> runs start (fst (play l)) (snd (play l)).
Proof. unfold plays, play. destruct (perform start l) as [[r s]|] eqn:E; [|discriminate]. intros _. exact (perform_runs _ _ _ _ E). Qed.
Lemma perform_app l1 l2 s : perform s (l1 ++ l2) = match perform s l1 with Some (r1, s1) => match perform s1 l2 with Some (r2, s2) => Some (r1 ++ r2, s2) | None => None end | None => None end.
Proof.
  revert s. induction l1 as [|a l IH]; cbn [app perform]; intros s; [destruct (perform s l2) as [[? ?]|]; reflexivity|].
  destruct (step s a) as [s1 e| | |]; try reflexivity. rewrite IH. destruct (perform s1 l) as [[r1 s2]|]; [|reflexivity]. destruct (perform s2 l2) as [[r2 s3]|]; reflexivity.
Qed.

(** A client watches a descriptor when the thread runs, and the thread is started. *)
Definition watching (t : N) (f : fd) (c : callback) : list act := [Watch t f c; Exchange t; Notify t].
Definition first (t : N) (f : fd) (c : callback) : list act := [Watch t f c; Exchange t; Pipe t true; Spawn t; Notify t].
Definition to_sleep : list act := [Check; SetUp].
Definition round_start : list act := [Wake; Drain; Check; Take].
Definition stop_it (t : N) : list act := [Stop t; Notify t].
Definition end_it (t : N) : list act := [Join t; Clear t].

(** Two descriptors have data; the callbacks are called in the order of the descriptors. *)
Definition two_calls : list act := first 1 7 70%N ++ watching 2 5 50%N ++ to_sleep ++ [Arrive 7 true; Arrive 5 true] ++ round_start ++ [Call; Call].
Definition in_round : list act := first 1 7 70%N ++ watching 2 5 50%N ++ to_sleep ++ [Arrive 7 true; Arrive 5 true] ++ round_start.

Local Ltac every := let x := fresh in let I := fresh in intros x I; vm_compute in I; repeat (destruct I as [<-|I]; [reflexivity|]); destruct I.

Lemma called_witness : exists r s s', runs start r s /\ step s Call = Next s' [Called 7 70%N] /\ calls_of r = [(5, 50%N)].
Proof.
  set (l := in_round ++ [Call]). exists (fst (play l)), (snd (play l)), (set_place (Calling []) (snd (play l))). split; [apply play_runs; reflexivity|]. split; vm_compute; reflexivity.
Qed.
Lemma unwatched_witness : exists r1 r2 t f e s, runs start (r1 ++ (Unwatch t f, e) :: r2) s /\ free_of (watches f) r2 /\ callback_for f r1 = Some 70%N /\ data f r1 = true /\ In (5, 50%N) (calls_of r2).
Proof.
  set (l1 := first 1 7 70%N ++ watching 2 5 50%N ++ to_sleep ++ [Arrive 7 true; Arrive 5 true; Wake; Drain; Check]). set (s1 := snd (play l1)).
  set (q := match perform s1 (Unwatch 1 7 :: [Take; Call; Done]) with Some p => p | None => ([], start) end).
  exists (fst (play l1)), (tl (fst q)), 1%N, 7, [Returned 1 true], (snd q). split; [|split; [every|split; [reflexivity|split; [reflexivity|left; reflexivity]]]].
  apply runs_app. exists s1. split; [apply play_runs; reflexivity|]. apply (perform_runs (Unwatch 1 7 :: [Take; Call; Done])). unfold q. vm_compute. reflexivity.
Qed.
Lemma unwatched_inside_witness : exists r0 r1 r2 f e e1 s, runs start (r0 ++ (InUnwatch f, e) :: r1 ++ (Done, e1) :: r2) s /\ free_of (watches f) (r1 ++ r2) /\ (exists x, In x r1 /\ called f x = true) /\ data f (r0 ++ (InUnwatch f, e) :: r1 ++ (Done, e1) :: r2) = true /\
  In (5, 50%N) (calls_of r2).
Proof.
  set (l1 := in_round ++ [Call]). set (s1 := snd (play l1)). set (s2 := set_watched (erase (watched s1) 7) s1).
  set (p := match perform s2 [Call] with Some p => p | None => ([], start) end). set (s3 := set_place Top (snd p)).
  set (q := match perform s3 (to_sleep ++ round_start ++ [Call; Done]) with Some p => p | None => ([], start) end).
  exists (fst (play l1)), (fst p), (fst q), 7, [], [], (snd q). split; [|split; [every|split; [exists (Call, [Called 7 70%N]); split; [left|]; reflexivity|split; [reflexivity|left; reflexivity]]]].
  apply runs_app. exists s1. split; [apply play_runs; reflexivity|]. econstructor; [reflexivity|]. apply runs_app. exists (snd p). split; [apply (perform_runs [Call]); reflexivity|].
  econstructor; [reflexivity|]. apply (perform_runs (to_sleep ++ round_start ++ [Call; Done])). vm_compute. reflexivity.
Qed.
(** ... but in the same round the callback is still called. *)
Lemma unwatched_round : exists r1 r2 f e s, runs start (r1 ++ (InUnwatch f, e) :: r2) s /\ free_of (watches f) r2 /\ exists x, In x r2 /\ called f x = true.
Proof.
  set (l1 := in_round ++ [Call]). set (s1 := snd (play l1)). set (q := match perform s1 [InUnwatch 7; Call] with Some p => p | None => ([], start) end).
  exists (fst (play l1)), (tl (fst q)), 7, [], (snd q). split; [|split; [every|exists (Call, [Called 7 70%N]); split; [left|]; reflexivity]].
  apply runs_app. exists s1. split; [apply play_runs; reflexivity|]. apply (perform_runs [InUnwatch 7; Call]). vm_compute. reflexivity.
Qed.
Lemma joined_witness : exists r t e r1 s, runs start (r ++ (Join t, e) :: r1) s /\ free_of is_spawn r1 /\ data 7 r = true /\ callback_for 7 r = Some 70%N /\ (exists x, In x r1 /\ any_watch (fst x) = true).
Proof.
  set (l1 := first 1 7 70%N ++ to_sleep ++ [Arrive 7 true] ++ stop_it 2 ++ [Wake; Drain; Check]). set (s1 := snd (play l1)). set (l2 := [Join 2; Clear 2; Watch 1 7 71%N; Exchange 1]).
  set (q := match perform s1 l2 with Some p => p | None => ([], start) end).
  exists (fst (play l1)), 2%N, [], (tl (fst q)), (snd q). split; [|split; [every|split; [reflexivity|split; [reflexivity|exists (Watch 1 7 71%N, []); split; [right; left|]; reflexivity]]]].
  apply runs_app. exists s1. split; [apply play_runs; reflexivity|]. apply (perform_runs l2). vm_compute. reflexivity.
Qed.

(** A descriptor is watched while the thread sleeps on another one. *)
Lemma notices_witness : exists r s, runs start r s /\ (forall x, In x r -> pipe_made (fst x) = true) /\ (forall x, In x r -> valid (fst x) = true) /\ quiet s /\
  callback_for 5 r = Some 50%N /\ data 5 r = true /\ place_of s = Asleep [7] /\ stray s = 0%N.
Proof.
  set (l := first 1 7 70%N ++ to_sleep ++ [Wake; Drain; Check; Take; Done] ++ to_sleep ++ watching 2 5 50%N ++ [Arrive 5 true]).
  exists (fst (play l)), (snd (play l)). split; [apply play_runs; reflexivity|]. split; [every|]. split; [every|]. split; [|repeat split; reflexivity].
  intros t. vm_compute. destruct t as [|[?|?|]]; try reflexivity. all: destruct p; reflexivity.
Qed.

(** Careful clients start, stop and start again. *)
Definition cycle (t : N) (f : fd) : list act := first t f 9%N ++ to_sleep ++ stop_it 3 ++ [Wake; Drain; Check].
(** The clients 1, 2 and 3 *)
Definition here (t : N) : bool := existsb (N.eqb t) [1; 2; 3]%N.
Definition who (a : act) : bool :=
  match a with Watch t _ _ | Exchange t | Pipe t _ | Spawn t | Notify t | Unwatch t _ | Stop t | Join t | Clear t => here t | _ => true end.
Definition outside (s : state) : Prop := forall t, here t = false -> clients s t = Free.
Lemma outside_step s a s' e : step s a = Next s' e -> who a = true -> outside s -> outside s'.
Proof.
  intros S W O t H. specialize (O t H). destruct a; cbn [step who] in S, W; crack S; try discriminate S; injection S as <- <-; fields; rewrite ?notify_clients; fields; try exact O;
    (destruct (N.eqb_spec t t0) as [->|]; [congruence|exact O]).
Qed.
Definition careful_b (s : state) (a : act) : bool :=
  match a with
  | Stop _ => forallb (fun t => match clients s t with Free => true | _ => false end) [1; 2; 3]%N
  | Watch _ _ _ | InWatch _ _ => forallb (fun t => negb (stopping (clients s t))) [1; 2; 3]%N
  | InStop => false
  | Pipe _ ok => ok
  | _ => true
  end.
Lemma careful_b_ok s a : outside s -> careful_b s a = true -> careful s a.
Proof.
  intros O B. assert (forall t, here t = true -> In t [1; 2; 3]%N) as H by (intros t X; unfold here in X; apply existsb_exists in X as (u & I & E); apply N.eqb_eq in E; now subst).
  destruct a; cbn [careful careful_b] in *; auto; try discriminate B.
  - intros u. destruct (here u) eqn:X; [|now rewrite (O u X)]. rewrite forallb_forall in B. specialize (B u (H u X)). now destruct (stopping (clients s u)).
  - intros u. destruct (here u) eqn:X; [|exact (O u X)]. rewrite forallb_forall in B. specialize (B u (H u X)). now destruct (clients s u).
  - intros u. destruct (here u) eqn:X; [|now rewrite (O u X)]. rewrite forallb_forall in B. specialize (B u (H u X)). now destruct (stopping (clients s u)).
Qed.
Fixpoint cautious (s : state) (l : list act) : bool :=
  match l with [] => true | a :: l => careful_b s a && who a && match step s a with Next s1 _ => cautious s1 l | _ => true end end.
Lemma cautious_orderly l : forall s r s', outside s -> cautious s l = true -> perform s l = Some (r, s') -> orderly s r s'.
Proof.
  induction l as [|a l IH]; cbn [perform cautious]; intros s r s' O VC E; [injection E as <- <-; constructor|]. apply andb_true_iff in VC as [V C]. apply andb_true_iff in V as [V W].
  destruct (step s a) as [s1 e| | |] eqn:S; try discriminate. destruct (perform s1 l) as [[r1 s2]|] eqn:P; [|discriminate]. injection E as <- <-.
  econstructor; [exact (careful_b_ok _ _ O V)|exact S|exact (IH _ _ _ (outside_step _ _ _ _ S W O) C P)].
Qed.
Lemma play_orderly l : cautious start l = true -> plays l = true -> orderly start (fst (play l)) (snd (play l)).
Proof. unfold plays, play. intros C. destruct (perform start l) as [[r s]|] eqn:E; [|discriminate]. intros _. exact (cautious_orderly l start r s (fun _ _ => eq_refl) C E). Qed.
Local Ltac all_free := let t := fresh in intros t; destruct t as [|[[?|?|]|[?|?|]|]]; vm_compute; reflexivity.
Lemma stop_witness : exists r s, orderly start r s /\ (forall x, In x r -> valid (fst x) = true) /\ clients s 3%N = Joining /\ callback_for 6 r = Some 9%N /\ In (Clear 3, [Returned 3 true]) r.
Proof.
  set (l := cycle 1 7 ++ end_it 3 ++ cycle 2 6). exists (fst (play l)), (snd (play l)). split; [|split; [every|split; [reflexivity|split; [reflexivity|vm_compute; tauto]]]].
  apply play_orderly; vm_compute; reflexivity.
Qed.
Lemma silent_witness : exists r s t e r' s', orderly start (r ++ [(Clear t, e)]) s /\ runs s r' s' /\ free_of any_watch r' /\ data 7 (r ++ (Clear t, e) :: r') = true.
Proof.
  set (l := cycle 1 7 ++ [Join 3]). set (s1 := snd (play (l ++ [Clear 3]))). set (q := match perform s1 [Arrive 7 true; Unwatch 1 7] with Some p => p | None => ([], start) end).
  exists (fst (play l)), s1, 3%N, [Returned 3 true], (fst q), (snd q). split; [|split; [|split; [every|reflexivity]]].
  - apply (play_orderly (l ++ [Clear 3])); vm_compute; reflexivity.
  - apply (perform_runs [Arrive 7 true; Unwatch 1 7]). vm_compute. reflexivity.
Qed.

(** * What goes wrong *)
(** The pipe cannot be made: the client is told; but a second client is told that its descriptor is watched. *)
Lemma pipe_fails : exists r s, runs start r s /\ quiet s /\ (forall x, In x r -> valid (fst x) = true) /\ callback_for 5 r = Some 50%N /\ data 5 r = true /\
  In (Notify 2, [Returned 2 true]) r /\ (forall a, watcher_act a = true -> step s a = Blocked).
Proof.
  set (l := [Watch 1 7 70%N; Exchange 1; Pipe 1 false] ++ watching 2 5 50%N ++ [Arrive 5 true]). exists (fst (play l)), (snd (play l)).
  split; [apply play_runs; reflexivity|]. split; [all_free|]. split; [every|]. split; [reflexivity|]. split; [reflexivity|]. split; [vm_compute; tauto|]. intros a. destruct a; try discriminate; reflexivity.
Qed.
(** ... and stopThread then terminates the program. *)
Lemma pipe_fails_stop : exists r s t, runs start r s /\ (forall x, In x r -> valid (fst x) = true) /\ free_of in_stop r /\ In (Pipe 1 false, [Returned 1 false]) r /\ step s (Join t) = Terminated.
Proof.
  set (l := [Watch 1 7 70%N; Exchange 1; Pipe 1 false] ++ stop_it 1). exists (fst (play l)), (snd (play l)), 1%N.
  split; [apply play_runs; reflexivity|]. split; [every|]. split; [every|]. split; [vm_compute; tauto|reflexivity].
Qed.
(** ... or never returns. *)
Lemma pipe_fails_hangs : exists r s t, runs start r s /\ clients s t = Joining /\ (forall u, u <> t -> clients s u = Free) /\ (forall x, In x r -> valid (fst x) = true) /\
  forall a, watcher_act a = true \/ stop_act t a = true -> step s a = Blocked.
Proof.
  set (l := first 1 7 70%N ++ to_sleep ++ stop_it 2 ++ [Watch 1 5 50%N; Exchange 1; Pipe 1 false] ++ [Wake; Drain; Check; Take; Done] ++ to_sleep). exists (fst (play l)), (snd (play l)), 2%N.
  split; [apply play_runs; reflexivity|]. split; [reflexivity|]. split.
  { intros u NE. destruct u as [|[[?|?|]|[?|?|]|]]; try (vm_compute; reflexivity). now destruct NE. }
  split; [every|]. intros a [A|A]; destruct a; try discriminate; try reflexivity; cbn [stop_act] in A; apply N.eqb_eq in A; subst; reflexivity.
Qed.
(** A callback watches a descriptor while a client stops the thread. *)
Lemma watch_while_stopping : exists r s f c, runs start r s /\ free_of in_stop r /\ (forall x, In x r -> pipe_made (fst x) = true) /\ in_set f = true /\ step s (InWatch f c) = Terminated.
Proof.
  set (l := in_round ++ [Call; Stop 1]). exists (fst (play l)), (snd (play l)), 9, 90%N. split; [apply play_runs; reflexivity|]. split; [every|]. split; [every|]. split; reflexivity.
Qed.
(** A callback stops the thread, and a descriptor is watched later. *)
Lemma watch_after_stop : exists r s t, runs start r s /\ (forall x, In x r -> pipe_made (fst x) = true) /\ (forall x, In x r -> valid (fst x) = true) /\ place_of s = Off /\ step s (Spawn t) = Terminated.
Proof.
  set (l := in_round ++ [Call; InStop; Call; Done; Check] ++ [Watch 1 9 90%N; Exchange 1; Pipe 1 true]). exists (fst (play l)), (snd (play l)), 1%N. split; [apply play_runs; reflexivity|]. split; [every|]. split; [every|]. split; reflexivity.
Qed.
(** Two clients start: a byte is written to descriptor 0. *)
Lemma stray_byte : exists r s, runs start r s /\ quiet s /\ free_of stops r /\ (forall x, In x r -> pipe_made (fst x) = true) /\ stray s = 1%N.
Proof.
  set (l := [Watch 1 7 70%N; Exchange 1] ++ watching 2 5 50%N ++ [Pipe 1 true; Spawn 1; Notify 1]). exists (fst (play l)), (snd (play l)). split; [apply play_runs; reflexivity|]. split; [all_free|]. split; [every|]. split; [every|]. reflexivity.
Qed.
(** Any descriptor that does not fit *)
Lemma unfit f : in_set f = false -> exists r s, runs start r s /\ free_of stops r /\ (forall x, In x r -> pipe_made (fst x) = true) /\ In (Notify 1, [Returned 1 true]) r /\ step s SetUp = Undefined.
Proof.
  intros F. set (l := first 1 f 70%N ++ [Check]). exists (fst (play l)), (snd (play l)). split; [apply play_runs; vm_compute; reflexivity|].
  split; [every|]. split; [every|]. split; [vm_compute; tauto|].
  assert (forall s, place_of s = Setup -> map fst (watched s) = [f] -> step s SetUp = Undefined) as K by (intros s P W; cbn [step]; rewrite P, W; cbn [forallb]; change (fits f) with (in_set f); now rewrite F).
  apply K; vm_compute; reflexivity.
Qed.
(** A callback that is given when there are no data, and called without data *)
Lemma stale : exists r1 r2 e t f c s1 s s', runs start r1 s1 /\ runs s1 ((Watch t f c, e) :: r2) s /\ data f r1 = false /\ data f (r1 ++ (Watch t f c, e) :: r2) = false /\
  free_of (fun a => match a with Arrive _ true => true | _ => false end) r2 /\ step s Call = Next s' [Called f c].
Proof.
  set (l1 := first 1 7 70%N ++ to_sleep ++ [Arrive 7 true; Wake; Drain; Unwatch 1 7; Arrive 7 false]). set (s1 := snd (play l1)). set (l2 := watching 1 7 71%N ++ [Check; Take]).
  set (q := match perform s1 l2 with Some p => p | None => ([], start) end).
  exists (fst (play l1)), (tl (fst q)), [], 1%N, 7, 71%N, s1, (snd q), (set_place (Calling []) (snd q)). split; [apply play_runs; reflexivity|]. split; [apply (perform_runs l2); vm_compute; reflexivity|].
  split; [reflexivity|]. split; [reflexivity|]. split; [every|]. vm_compute. reflexivity.
Qed.
(** A descriptor is watched while the thread is stopped: the thread is started again, and the descriptor is forgotten. *)
Lemma forgotten : exists r1 r2 t f c e s, runs start (r1 ++ (Watch t f c, e) :: r2) s /\ quiet s /\ (forall x, In x r2 -> stops (fst x) = false /\ fst x <> Unwatch t f /\ fst x <> InUnwatch f) /\
  In (Notify t, [Returned t true]) r2 /\ callback_for f (r1 ++ (Watch t f c, e) :: r2) = None /\ running s = true.
Proof.
  set (l1 := first 1 7 70%N ++ to_sleep ++ stop_it 2 ++ [Wake; Drain; Check; Join 2]). set (s1 := snd (play l1)). set (l2 := first 1 5 50%N ++ [Clear 2]).
  set (q := match perform s1 l2 with Some p => p | None => ([], start) end).
  exists (fst (play l1)), (tl (fst q)), 1%N, 5, 50%N, [], (snd q). split; [|split; [all_free|split; [|split; [vm_compute; tauto|split; reflexivity]]]].
  - apply runs_app. exists s1. split; [apply play_runs; reflexivity|]. apply (perform_runs l2). vm_compute. reflexivity.
  - intros x I; vm_compute in I; repeat (destruct I as [<-|I]; [repeat split; discriminate|]); destruct I.
Qed.
(** The second stop returns at once, while callbacks are called. *)
Lemma second_stop : exists r s t f c s', runs start (r ++ [(Stop t, [Returned t true])]) s /\ (forall x, In x r -> pipe_made (fst x) = true) /\ step s Call = Next s' [Called f c].
Proof.
  set (l := in_round ++ [Stop 1]). exists (fst (play l)), (snd (play (l ++ [Stop 2]))), 2%N, 5, 50%N, (set_place (Calling [(7, 70%N)]) (snd (play (l ++ [Stop 2])))).
  split; [apply (perform_runs (l ++ [Stop 2])); vm_compute; reflexivity|]. split; [every|]. vm_compute. reflexivity.
Qed.
