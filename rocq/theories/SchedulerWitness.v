(** Concrete histories of the scheduler, and the histories which refute what does not hold. *)
From Verif Require Import Prelude Scheduler SchedulerSpec SchedulerProofs.
Open Scope N_scope.

Lemma play_history ops : forall h s s' h', history h s -> play s ops = Some (s', h') -> history (h' ++ h) s'.
Proof.
  induction ops as [|o ops IH]; cbn [play]; intros h s s' h' H E; [injection E as <- <-; exact H|].
  destruct (step s o) as [s1 e| |] eqn:S; try discriminate.
  destruct (play s1 ops) as [[s2 h2]|] eqn:P; [|discriminate]. injection E as <- <-.
  rewrite <- app_assoc. apply (IH (e :: h) s1); [|exact P]. exact (after _ _ _ _ _ H S).
Qed.

Ltac played ops :=
  let r := eval vm_compute in (play (init 0) ops) in
  match r with
  | Some (?s, ?h) => exact (play_history ops [] (init 0) s h (start 0) eq_refl)
  end.

(** Two tasks scheduled in the order opposite to their times, one cancelled, one periodic *)
Definition usual : list op :=
  [Schedule 20 None; Schedule 10 (Some 7%Z); Schedule 10 None; Cancel 3; Advance 25; Tick; Turn;
   Schedule 0 None; Return; Turn; Return; Turn; Return; Turn; Advance 10; Tick; Turn; Return; Turn].

Lemma usual_history : exists s, history
  [EvTickEnd 35; EvReturn 1; EvRun 1 35; EvTick 35; EvClock 35; EvTickEnd 25; EvReturn 3; EvRun 3 25; EvReturn 0; EvRun 0 25; EvReturn 1;
   EvSchedule 3 4 25 None; EvRun 1 25; EvTick 25; EvClock 25; EvCancel 3 (Some 2);
   EvSchedule 2 3 10 None; EvSchedule 1 2 10 (Some 7%Z); EvSchedule 0 1 20 None] s.
Proof. eexists. played usual. Qed.

(** A periodic task which cancels itself runs again *)
Lemma self_cancel : exists h2 h1 s n i now now' now'',
  history (EvRun n now' :: EvTick now'' :: h2 ++ EvCancel i None :: EvRun n now :: h1) s /\ id_of n h1 = Some i.
Proof.
  exists [EvClock 7; EvTickEnd 0; EvReturn 0], [EvTick 0; EvSchedule 0 1 0 (Some 7%Z)]. eexists. exists 0, 1, 0%Z, 7%Z, 7%Z.
  split; [|reflexivity]. played [Schedule 0 (Some 7%Z); Tick; Turn; Cancel 1; Return; Turn; Advance 7; Tick; Turn].
Qed.

(** A periodic task of period zero keeps the scheduler busy for ever *)
Lemma zero_period k : exists h s, history h s /\ runs_in_tick 0 h = k /\ period_of 0 h = Some 0%Z /\
  s = Sched [Task 0 1 (Some 0%Z) 0] 2 0 (Some 0%Z) None 1.
Proof.
  induction k as [|k (h & s & H & R & P & ->)] using N.peano_ind.
  - exists [EvTick 0; EvSchedule 0 1 0 (Some 0%Z)]. eexists. split; [played [Schedule 0 (Some 0%Z); Tick]|]. now repeat split.
  - exists (EvReturn 0 :: EvRun 0 0 :: h). eexists. split.
    + eapply after; [eapply after; [exact H|]|]; [exact (eq_refl : step _ Turn = _)|exact (eq_refl : step _ Return = _)].
    + cbn [runs_in_tick period_of]. rewrite R. change (0 =? 0) with true. cbn. repeat split; [lia|exact P].
Qed.

(** After 2^32 tasks the identifiers start again, and may be that of a periodic task
    whose callback is running. *)
Definition busy (c k : N) : sched := Sched [] c 0 (Some 0%Z) (Some (Task 0 1 (Some 9%Z) 0)) k.

Lemma busy_round c k : 0 < c -> c < 4294967296 ->
  step (busy c k) (Schedule 5 None) =
    Next (Sched [Task 5 c None k] (wrap32 (c + 1)) 0 (Some 0%Z) (Some (Task 0 1 (Some 9%Z) 0)) (k + 1)) (EvSchedule k c 5 None) /\
  step (Sched [Task 5 c None k] (wrap32 (c + 1)) 0 (Some 0%Z) (Some (Task 0 1 (Some 9%Z) 0)) (k + 1)) (Cancel c) =
    Next (busy (wrap32 (c + 1)) (k + 1)) (EvCancel c (Some k)).
Proof.
  intros P L. split.
  - cbn [step in_code busy queue counter clock ticking current count negb length next_id existsb].
    rewrite (proj2 (N.eqb_neq c 0)) by lia. reflexivity.
  - cbn [step in_code busy queue counter clock ticking current count negb cancel id name]. now rewrite N.eqb_refl.
Qed.

Lemma busy_rounds j : forall c k h, 0 < c -> 0 < k -> c + j <= 4294967296 ->
  history h (busy c k) -> period_of 0 h = Some 9%Z -> id_of 0 h = Some 1 -> tick_time h = 0%Z ->
  exists h', history h' (busy (wrap32 (c + j)) (k + j)) /\ period_of 0 h' = Some 9%Z /\ id_of 0 h' = Some 1 /\ tick_time h' = 0%Z \/ j = 0.
Proof.
  induction j as [|j IH] using N.peano_ind; intros c k h C K L H P I T; [exists []; now right|].
  destruct (busy_round c k C) as [S1 S2]; [lia|].
  assert (H' : history (EvCancel c (Some k) :: EvSchedule k c 5 None :: h) (busy (wrap32 (c + 1)) (k + 1))).
  { eapply after; [eapply after; [exact H|exact S1]|exact S2]. }
  assert (X : period_of 0 (EvCancel c (Some k) :: EvSchedule k c 5 None :: h) = Some 9%Z /\
              id_of 0 (EvCancel c (Some k) :: EvSchedule k c 5 None :: h) = Some 1 /\
              tick_time (EvCancel c (Some k) :: EvSchedule k c 5 None :: h) = 0%Z).
  { cbn [period_of id_of tick_time]. rewrite (proj2 (N.eqb_neq k 0)) by lia. auto. }
  destruct (N.eq_dec j 0) as [->|J].
  - exists (EvCancel c (Some k) :: EvSchedule k c 5 None :: h). left. change (N.succ 0) with 1. tauto.
  - assert (W : wrap32 (c + 1) = c + 1) by (apply wrap_small; lia). rewrite W in H'.
    destruct X as (X1 & X2 & X3).
    destruct (IH (c + 1) (k + 1) _ ltac:(lia) ltac:(lia) ltac:(lia) H' X1 X2 X3) as (h' & [Y|Y]); [|lia].
    exists h'. left. replace (c + N.succ j) with (c + 1 + j) by lia. replace (k + N.succ j) with (k + 1 + j) by lia. exact Y.
Qed.

Lemma identifiers_clash : exists h s n m i d d', history h s /\ n <> m /\
  id_of n h = Some i /\ id_of m h = Some i /\ due_of n h = Some d /\ due_of m h = Some d'.
Proof.
  assert (H : history [EvRun 0 0; EvTick 0; EvSchedule 0 1 0 (Some 9%Z)] (busy 2 1)) by played [Schedule 0 (Some 9%Z); Tick; Turn].
  destruct (busy_rounds 4294967294 2 1 _ ltac:(lia) ltac:(lia) ltac:(lia) H eq_refl eq_refl eq_refl) as (h & [(H' & P & I & T)|]); [|lia].
  change (wrap32 (2 + 4294967294)) with 0 in H'. change (1 + 4294967294) with 4294967295 in H'.
  assert (S1 : step (busy 0 4294967295) (Schedule 5 None) =
    Next (Sched [Task 5 1 None 4294967295] 2 0 (Some 0%Z) (Some (Task 0 1 (Some 9%Z) 0)) 4294967296) (EvSchedule 4294967295 1 5 None)) by reflexivity.
  assert (S2 : step (Sched [Task 5 1 None 4294967295] 2 0 (Some 0%Z) (Some (Task 0 1 (Some 9%Z) 0)) 4294967296) Return =
    Next (Sched [Task 5 1 None 4294967295; Task 9 1 (Some 9%Z) 0] 2 0 (Some 0%Z) None 4294967296) (EvReturn 0)) by reflexivity.
  exists (EvReturn 0 :: EvSchedule 4294967295 1 5 None :: h). eexists. exists 0, 4294967295, 1, 9%Z, 5%Z.
  split; [eapply after; [eapply after; [exact H'|exact S1]|exact S2]|]. split; [discriminate|].
  cbn [id_of due_of]. change (4294967295 =? 0) with false. change (4294967295 =? 4294967295) with true.
  change (0 =? 4294967295) with false. change (0 =? 0) with true. cbn match. rewrite I.
  cbn [period_of tick_time]. change (4294967295 =? 0) with false. cbn match. rewrite P, T. now repeat split.
Qed.
