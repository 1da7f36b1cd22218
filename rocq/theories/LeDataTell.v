(** Who is told that a link has ended. *)
From Coq Require Import Sorted.
From Verif Require Import Prelude Table LeData LeDataSpec LeDataProofs LeDataMore LeDataWatch.
From Verif Require Iso.
Open Scope N_scope.

Lemma waiting_in : forall s o, In o (waiting s) <-> exists u, In u (queue s) /\ todo u = Say o.
Proof.
  intros s o. unfold waiting, says. rewrite in_flat_map. split.
  - intros (u & I & J). exists u. split; auto. destruct (todo u); [destruct J as [->|[]]; auto|destruct J].
  - intros (u & I & J). exists u. split; auto. rewrite J. now left.
Qed.
Lemma grows_waiting : forall s s' o, grows s s' -> In o (waiting s) -> In o (waiting s').
Proof. intros s s' o G I. apply waiting_in in I as (u & I & U). apply waiting_in. exists u. auto. Qed.
Lemma schedule_waiting : forall t o s, In o (waiting (schedule t (Say o) s)).
Proof. intros. apply waiting_in. eexists. split; [cbn [schedule queue]; apply in_insert; left; reflexivity|reflexivity]. Qed.

Lemma tell_grows : forall e now h r s, grows s (tell_disconnection e now h r s).
Proof. intros. unfold tell_disconnection. destruct (told e); intros u I; auto. now apply in_schedule. Qed.
Lemma tell_tells : forall e now h r s, told e = true -> In (Disconnected h r) (waiting (tell_disconnection e now h r s)).
Proof. intros. unfold tell_disconnection. rewrite H. apply schedule_waiting. Qed.

Lemma disconnect_tells : forall e now h r r' s c, lookup (links s) h = Some c -> let s' := disconnect e now h r r' s in
  grows s s' /\ links s' = erase (links s) h /\ In (Sent (Frame (own c) (peer c) (Bye r))) (waiting s') /\ (told e = true -> In (Disconnected h r') (waiting s')).
Proof.
  intros e now h r r' s c L. cbv zeta. unfold disconnect. rewrite L. cbv zeta. set (s1 := transmit now _ s). set (s2 := with_links _ s1). repeat split.
  - intros u I. apply tell_grows. now apply in_schedule.
  - unfold tell_disconnection. destruct (told e); reflexivity.
  - apply (grows_waiting s2); [apply tell_grows|]. change (waiting s2) with (waiting s1). apply schedule_waiting.
  - intros T. now apply tell_tells.
Qed.
Lemma disconnect_grows : forall e now h r r' s, grows s (disconnect e now h r r' s).
Proof. intros. destruct (lookup (links s) h) as [c|] eqn:L; [apply (disconnect_tells e now h r r' s c L)|]. unfold disconnect. rewrite L. intros u; auto. Qed.
Lemma check_grows : forall e now h s, grows s (check_link e now h s).
Proof. intros. apply (check_frame e now h s). Qed.

Lemma run_grows : forall e now l s s' x, run_tasks e now l s = (s', x) -> grows s s'.
Proof.
  intros e now. induction l as [|t l IH]; cbn [run_tasks]; intros s s' x H; [injection H as <- _; intros u; auto|]. destruct (todo t) as [o|h].
  - destruct (run_tasks e now l s) as [s1 o1] eqn:E. injection H as <- _. eauto.
  - destruct (run_tasks e now l (check_link e now h s)) as [s1 o1] eqn:E. injection H as <- _. intros u I. apply (IH _ _ _ E), check_grows, I.
Qed.
Lemma run_tells : forall e now l s s' x k c, run_tasks e now l s = (s', x) -> lookup (links s) k = Some c -> lookup (links s') k = None ->
  In (Sent (Frame (own c) (peer c) (Bye 8))) (waiting s') /\ (told e = true -> In (Disconnected k 8) (waiting s')).
Proof.
  intros e now. induction l as [|t l IH]; cbn [run_tasks]; intros s s' x k c H L N; [injection H as <- _; congruence|]. destruct (todo t) as [o|h].
  - destruct (run_tasks e now l s) as [s1 o1] eqn:E. injection H as <- _. eauto.
  - destruct (run_tasks e now l (check_link e now h s)) as [s1 o1] eqn:E. injection H as <- _.
    destruct (lookup (links (check_link e now h s)) k) as [c'|] eqn:L1.
    + destruct (check_frame e now h s) as (_ & F). assert (EQ : c' = c); [|subst c'; eauto]. destruct (lookup (links s) h); [destruct (_ <? _)|].
      * rewrite F in L1. apply lookup_erase_some in L1. congruence.
      * destruct F as (F & _). rewrite F in L1. congruence.
      * rewrite F in L1. congruence.
    + pose proof (run_grows _ _ _ _ _ _ E) as G. unfold check_link in L1. destruct (lookup (links s) h) as [d|] eqn:LH; [|congruence].
      unfold check_link in G. rewrite LH in G. destruct (_ <? now).
      * destruct (disconnect_tells e now h CONNECTION_TIMEOUT CONNECTION_TIMEOUT s d LH) as (_ & EL & T1 & T2). rewrite EL, lookup_erase in L1. destruct (N.eqb_spec k h) as [->|]; [|congruence].
        assert (d = c) by congruence. subst d. split; [eapply grows_waiting; eauto|]. intros T. eapply grows_waiting; eauto.
      * destruct (_ <? now); cbn [transmit schedule links] in L1; congruence.
Qed.

Lemma step_waiting : forall e now s o s' x y, step e now s o = Some (s', x) -> inv now s -> In y (waiting s) -> In y x \/ In y (waiting s').
Proof.
  intros e now s o s' x y H IV I. destruct o; cbn [step] in H.
  - injection H as <- _. right. eapply grows_waiting; [|exact I]. unfold link_up. cbv zeta. intros u J. apply check_grows. now destruct (lookup _ _).
  - injection H as <- _. right. eapply grows_waiting; [apply disconnect_grows|exact I].
  - injection H as <- _. right. eapply grows_waiting; [apply reset_frame|exact I].
  - destruct (handle_acl _ _ _) eqn:E; [|discriminate]. injection H as <- _. right. eapply grows_waiting; [apply (handle_acl_frame _ _ _ _ E)|exact I].
  - destruct (handle_iso _ _ _ _) eqn:E; [|discriminate]. injection H as <- _. right. eapply grows_waiting; [apply (handle_iso_frame _ _ _ _ _ E)|exact I].
  - injection H as H. right. eapply grows_waiting; [apply (receive_frame _ _ _ _ _ _ H)|exact I].
  - injection H as H. left. destruct (tick_effect _ _ _ _ _ H IV) as (_ & -> & _). exact I.
Qed.

Lemma later_said : forall m h0 s s0 y, history h0 s0 -> history (m ++ h0) s -> timely (m ++ h0) -> In y (waiting s0) -> In y (said m) \/ In y (waiting s).
Proof.
  assert (DET : forall h s s', history h s -> history h s' -> s = s').
  { induction h as [|e h IH]; intros s s' H H'; [inversion H; inversion H'; congruence|]. inversion H as [|? u1 ? ? ? ? ? A1 A2 A3]; subst. inversion H' as [|? u2 ? ? ? ? ? B1 B2 B3]; subst. pose proof (IH _ _ A1 B1) as <-. congruence. }
  induction m as [|e m IH]; intros h0 s s0 y H0 H T I; cbn [app] in *.
  - right. now rewrite (DET _ _ _ H H0).
  - destruct (history_before _ _ _ H T) as (s1 & H1 & T1 & _ & _ & E & IV). cbn [said]. destruct (IH _ _ _ _ H0 H1 T1 I) as [J|J]; [left; apply in_or_app; auto|].
    destruct (step_waiting _ _ _ _ _ _ _ E IV J) as [K|K]; auto. left. apply in_or_app. auto.
Qed.

Lemma end_waiting : forall e h s, history (e :: h) s -> timely (e :: h) -> forall k a b r r', lookup (known e) k = Some (a, b) -> lookup (open_links s) k = None -> ended_by (what e) = Some (r, r') ->
  (told (seen e) = true -> In (Disconnected k r) (waiting s)) /\ (forall r2, r' = Some r2 -> In (Sent (Frame a b (Bye r2))) (waiting s)).
Proof.
  intros e h s H T k a b r r' LK LN EB. destruct (history_before _ _ _ H T) as (s0 & H0 & T0 & S & K & E & IV). rewrite K, open_lookup in LK. rewrite open_lookup in LN.
  destruct (lookup (links s0) k) as [c|] eqn:L0; [|discriminate]. injection LK as <- <-. destruct (lookup (links s) k) eqn:L1; [discriminate|]. clear LN.
  pose proof (history_watch _ _ H0 T0) as [D _ _].
  destruct (what e) as [| | | | |f|] eqn:W; try discriminate; cbn [step ended_by] in *.
  - injection EB as <- <-. injection E as E _. unfold disconnect in *. destruct (lookup (links s0) h0) as [d|] eqn:L2; [|congruence].
    destruct (disconnect_tells (seen e) (at_time e) h0 reason 22 s0 d L2) as (_ & EL & T1 & T2). unfold disconnect in *. rewrite L2 in *. rewrite <- E in L1 |- *. rewrite EL, lookup_erase in L1.
    destruct (N.eqb_spec k h0) as [->|]; [|congruence]. assert (d = c) by congruence. subst d. split; auto. intros r2 [= <-]. exact T1.
  - destruct f as [b a []]; try discriminate. injection EB as <- <-. split; [|discriminate]. intros TT. injection E as E. unfold receive in E. cbn [source destination about] in E.
    destruct (link_of _ _ _ _) as [j|] eqn:LO; [|injection E as <- _; congruence]. cbv zeta in E. injection E as E _. rewrite <- E in L1 |- *.
    assert (j = k); [|subst j; now apply tell_tells].
    destruct (lookup (links s0) j) as [d|] eqn:LJ.
    + assert (X : links (tell_disconnection (seen e) (at_time e) j reason (with_links (erase (links (with_links (put (links s0) j (Link (own d) (peer d) (at_time e))) s0)) j) (with_links (put (links s0) j (Link (own d) (peer d) (at_time e))) s0))) = erase (put (links s0) j (Link (own d) (peer d) (at_time e))) j).
      { unfold tell_disconnection. destruct (told (seen e)); reflexivity. }
      rewrite X, lookup_erase, lookup_put in L1. destruct (N.eqb_spec k j); auto. congruence.
    + assert (X : links (tell_disconnection (seen e) (at_time e) j reason (with_links (erase (links s0) j) s0)) = erase (links s0) j).
      { unfold tell_disconnection. destruct (told (seen e)); reflexivity. }
      rewrite X, lookup_erase in L1. destruct (N.eqb_spec k j); auto. congruence.
  - injection EB as <- <-. injection E as E. unfold tick in E. destruct (run_tells _ _ _ _ _ _ k c E L0 L1) as (A & B). split; auto. intros r2 [= <-]. exact A.
Qed.

(** Both hosts learn of the end *)
Theorem end_told : forall e1 m e h s s0, history (e1 :: m ++ e :: h) s -> timely (e1 :: m ++ e :: h) -> what e1 = Tick -> history (e :: h) s0 ->
  forall k a b r r', lookup (known e) k = Some (a, b) -> lookup (open_links s0) k = None -> ended_by (what e) = Some (r, r') ->
  (told (seen e) = true -> In (Disconnected k r) (said (e1 :: m))) /\ (forall r2, r' = Some r2 -> In (Sent (Frame a b (Bye r2))) (said (e1 :: m))).
Proof.
  intros e1 m e h s s0 H T W H0 k a b r r' LK LN EB.
  destruct (history_before _ _ _ H T) as (s1 & H1 & T1 & _ & _ & E & IV). rewrite W in E. cbn [step] in E. injection E as E. destruct (tick_effect _ _ _ _ _ E IV) as (_ & O & _).
  assert (T0 : timely (e :: h)). { clear - T1. induction m as [|x m IH]; auto. apply IH. cbn [app] in T1. destruct (m ++ e :: h); cbn in *; tauto. }
  destruct (end_waiting e h s0 H0 T0 k a b r r' LK LN EB) as (A & B). cbn [said].
  split; [intros TT; specialize (A TT)|intros r2 R; specialize (B r2 R)]; apply in_or_app; rewrite O; [exact (later_said m (e :: h) s1 s0 _ H0 H1 T1 A)|exact (later_said m (e :: h) s1 s0 _ H0 H1 T1 B)].
Qed.
