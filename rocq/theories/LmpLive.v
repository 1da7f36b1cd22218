(** Messages that are never taken; the manager never hangs. *)
From Verif Require Import Prelude Ec Lmp LmpSpec EcProofs LmpProofs LmpFits LmpManager.
Open Scope N_scope.

Section Random.
Variable rng : nat -> list N.

(** * Who writes the log of a session *)

Definition by_procedure (a : address) (l : list entry) : Prop := Forall (fun x => on x = a -> by_ x <> Manager) l.

Lemma tick_by e a : forall l n l' o n', tick_slots rng e l n = Ok (l', o, n') -> Forall good_slot l -> by_procedure a o.
Proof.
  induction l as [|s l IH]; intros n l' o n' E G; cbn [tick_slots] in E.
  - injection E as <- <- <-. constructor.
  - match type of E with bind ?x _ = _ => destruct x as [[[s1 o1] n1]| | |] eqn:T1; try discriminate end. cbn [bind] in E.
    destruct (tick_slots rng e l n1) as [[[l2 o2] n2]| | |] eqn:T2; try discriminate. cbn [bind] in E.
    injection E as <- <- <-. apply Forall_cons_iff in G as [G1 G2]. apply Forall_app. split; [|eapply IH; eauto].
    apply tick_slot_inv in T1 as [(_ & _ & -> & _)|(ps & qs & k & A & _ & B)]; [constructor|].
    destruct (poll_all_other rng e _ _ _ _ _ _ _ B) as (_ & _ & _ & F).
    unfold good_slot in G1. destruct (peer (s_link s) =? EMPTY).
    { destruct G1 as (_ & _ & X). congruence. }
    destruct G1 as (_ & ps2 & X & N & _). rewrite A in X. injection X as <-.
    eapply Forall_impl; [|exact F]. intros x [_ I] _ M. rewrite M, N in I. cbn in I. intuition discriminate.
Qed.

Lemma step_by known e a o m m' l : a <> EMPTY -> sound known (slots m) -> In a (peers (slots m)) ->
  o <> RemoveLink a -> step rng e m o = Ok (m', l) -> by_procedure a l.
Proof.
  intros A S I R E. destruct o; cbn [step] in E.
  - assert (K : forall b, b <> a -> bind (answer b (refusal c INVALID_PARAMETERS)) (fun o => Ok (m, o)) = Ok (m', l) -> by_procedure a l).
    { intros b B X. destruct (answer b (refusal c INVALID_PARAMETERS)) as [l0| | |] eqn:Y; try discriminate.
      cbn [bind] in X. injection X as <- <-. apply answer_log in Y as (v & _ & ->). constructor; [|constructor]. cbn. congruence. }
    destruct (target e c) as [b|]; [|apply (K EMPTY); auto].
    destruct (find_peer b (slots m)) as [s|] eqn:F.
    + destruct (hci (s_link s)); [discriminate|]. injection E as <- <-. constructor.
    + apply (K b); auto. intros ->. apply find_peer_in in F. contradiction.
  - injection E as <- <-. constructor.
  - destruct (find_peer EMPTY (slots m)); [|discriminate]. injection E as <- <-. constructor.
  - destruct (find_peer a0 (slots m)) as [s|]; [|discriminate]. cbn zeta in E.
    destruct (hci (s_link s)); [|injection E as <- <-; constructor].
    destruct (answer a0 (refusal c UNKNOWN_CONNECTION)) as [l0| | |] eqn:Y; try discriminate.
    cbn [bind] in E. injection E as <- <-. apply answer_log in Y as (v & _ & ->). constructor; [|constructor]. cbn. congruence.
  - destruct (tick_slots rng e (slots m) (drawn m)) as [[[l0 o0] n0]| | |] eqn:T; try discriminate.
    cbn [bind] in E. injection E as <- <-. eapply tick_by; [exact T|apply S].
  - injection E as <- <-. constructor.
Qed.

Lemma still_linked known a e o m m1 l1 : a <> EMPTY -> sound known (slots m) -> sound (linked [(e, o)] known) (slots m1) ->
  step rng e m o = Ok (m1, l1) -> In a (peers (slots m)) -> o <> RemoveLink a -> o <> Reset -> In a (peers (slots m1)).
Proof.
  intros A S S1 E I N1 N3. apply S1; [exact A|]. apply S in I; [|exact A]. destruct o; cbn [linked]; auto.
  - right. exact I.
  - apply filter_In. split; [exact I|]. rewrite (proj2 (N.eqb_neq a a0)) by congruence. reflexivity.
  - congruence.
Qed.

Lemma run_by a : a <> EMPTY -> forall h known m m' l, sound known (slots m) -> In a (peers (slots m)) ->
  orderly known h -> stays a h -> run rng m h = Ok (m', l) -> by_procedure a l.
Proof.
  intros A. induction h as [|[e o] h IH]; intros known m m' l S I OR ST E; cbn [run] in E.
  - injection E as <- <-. constructor.
  - destruct (step rng e m o) as [[m1 l1]| | |] eqn:X; try discriminate. cbn [bind] in E.
    destruct (run rng m1 h) as [[m2 l2]| | |] eqn:Y; try discriminate. cbn [bind] in E. injection E as <- <-.
    destruct OR as (O1 & O2). destruct (step_sound rng known e o m m1 l1 S (conj O1 Logic.I) X) as (S1 & _ & _).
    destruct (ST e o (or_introl eq_refl)) as (N1 & N2 & N3).
    apply Forall_app. split; [exact (step_by known e a o m m1 l1 A S I N1 X)|].
    refine (IH _ m1 m2 l2 S1 _ O2 _ Y).
    + exact (still_linked known a e o m m1 l1 A S S1 X I N1 N3).
    + intros e0 o0 J. apply (ST e0 o0). right. exact J.
Qed.

Lemma session_parts n pre e a h l : in_session rng n pre e a h l ->
  a <> EMPTY /\ by_procedure a l /\ (exists rest, received a h = heard a l ++ rest) /\
  (exists rest, given a h = answered a l ++ rest /\ (List.length rest <= 1)%nat) /\
  forall M w s, w <> Manager -> (forall s, resting M s = true -> fits a M s (start w a)) ->
    resting M s = true -> obeys M s (part a w l).
Proof.
  intros (m & l0 & m' & E & OR & ST & R).
  assert (OR1 : orderly [] (pre ++ [(e, AddLink a)]) /\ orderly (a :: linked pre []) h).
  { rewrite orderly_app in OR. destruct OR as (O1 & O2). cbn [orderly] in O2.
    rewrite orderly_app. cbn [orderly]. destruct O2 as (O2 & O3). cbn [linked] in O3. auto. }
  destruct OR1 as (OR1 & OR2).
  pose proof R as R0. cbn [run] in R.
  destruct (step rng e m (AddLink a)) as [[m1 l1]| | |] eqn:X; try discriminate. cbn [bind] in R.
  destruct (run rng m1 h) as [[m2 l2]| | |] eqn:Y; try discriminate. cbn [bind] in R. injection R as <- <-.
  destruct (session_start rng n pre e a m l0 m1 l1 E OR1 X) as (A & FP & CL & -> & _ & _ & IN & U).
  pose proof OR1 as OR3. apply orderly_app in OR3 as (O1 & O2). destruct (run_sound rng pre [] _ _ _ (new_sound rng n) O1 E) as (S & _).
  destruct (step_sound rng _ e (AddLink a) m m1 [] S O2 X) as (S1 & W1 & _). cbn [linked] in S1. cbn [app].
  split; [exact A|]. split; [exact (run_by a A h _ m1 m2 l2 S1 IN OR2 ST Y)|]. split; [|split].
  - exists (unheard a (slots m2)).
    rewrite <- (unheard_kept rng _ a h m1 m2 l2 A S1 IN OR2 ST Y), U. reflexivity.
  - exists (waiting a (slots m2)). split.
    + destruct (run_sound rng h _ m1 m2 l2 S1 OR2 Y) as (_ & W).
      rewrite <- (W (fun e0 o0 I0 => proj2 (proj2 (ST e0 o0 I0))) a A).
      assert (Z : waiting a (slots m1) = []).
      { specialize (W1 ltac:(discriminate) a A). cbn [given answered app] in W1. rewrite app_nil_r in W1. rewrite <- W1.
        unfold waiting. rewrite FP. reflexivity. }
      rewrite Z. reflexivity.
    + unfold waiting. destruct (find_peer a (slots m2)) as [s|]; [|cbn; lia]. unfold held_command.
      destruct (hci (s_link s)); cbn; lia.
  - intros M w s W F RS. exact (procedure_obeys rng M w a s n pre e h m l0 m2 _ W F E OR1 ST R0 RS).
Qed.

(** * Lost messages *)

Lemma drive_reads M x : forall l s t, drive M s l = Some t -> In x l -> exists u, next M u x <> None.
Proof.
  induction l as [|y l IH]; intros s t D I; [contradiction|]. cbn [drive] in D.
  destruct (next M s y) as [u|] eqn:N; [|discriminate]. destruct I as [->|I]; [|eauto]. exists s. congruence.
Qed.

Lemma part_in a l x : by_procedure a l -> In x l -> on x = a ->
  exists w, w <> Manager /\ In (what x) (part a w l).
Proof.
  intros B I O. exists (by_ x). split; [exact (proj1 (Forall_forall _ _) B x I O)|].
  unfold part. apply in_map_iff. exists x. split; [reflexivity|]. apply filter_In. split; [exact I|].
  rewrite O, N.eqb_refl. destruct (by_ x); reflexivity.
Qed.

Lemma heard_in a l p : In p (heard a l) -> exists x, In x l /\ on x = a /\ what x = Heard p.
Proof.
  induction l as [|[b w y] l IH]; [contradiction|]. intros I.
  assert (K : In p (heard a l) -> exists x, In x (Entry b w y :: l) /\ on x = a /\ what x = Heard p).
  { intros J. destruct (IH J) as (x & X & Y). exists x. split; [right; exact X|exact Y]. }
  destruct y; cbn [heard] in I; auto. destruct (b =? a) eqn:E; [|auto]. destruct I as [->|I]; [|auto].
  exists (Entry b w (Heard p)). split; [left; reflexivity|]. split; [apply N.eqb_eq; exact E|reflexivity].
Qed.

Lemma received_app a h1 : forall h2, received a (h1 ++ h2) = received a h1 ++ received a h2.
Proof.
  induction h1 as [|x h1 IH]; intros h2; [reflexivity|]. cbn [app]. rewrite received_cons, IH, (received_cons a x h1), app_assoc.
  reflexivity.
Qed.

Lemma given_app a h1 : forall h2, given a (h1 ++ h2) = given a h1 ++ given a h2.
Proof.
  induction h1 as [|x h1 IH]; intros h2; [reflexivity|]. cbn [app]. rewrite given_cons, IH, (given_cons a x h1), app_assoc.
  reflexivity.
Qed.

Lemma prefix_before {A} (x : A) (p q l r : list A) : p ++ x :: q = l ++ r -> ~ In x l -> exists s, p = l ++ s.
Proof.
  revert l. induction p as [|y p IH]; intros l E N.
  - destruct l as [|z l]; [exists []; reflexivity|]. cbn in E. injection E as -> _. exfalso. apply N. left. reflexivity.
  - destruct l as [|z l]; [exists (y :: p); reflexivity|]. cbn in E. injection E as -> E.
    destruct (IH l E) as (s & ->); [|exists s; reflexivity]. intros I. apply N. right. exact I.
Qed.

(** Once such a packet has arrived, no packet that arrives later is ever taken. *)
Theorem deafened n pre e a h1 e1 p h2 l :
  hopeless p = true -> in_session rng n pre e a (h1 ++ (e1, IngestLmp a p) :: h2) l ->
  exists rest, received a h1 = heard a l ++ rest.
Proof.
  intros P S. destruct (session_parts _ _ _ _ _ _ S) as (A & B & (rest & R) & _ & O).
  rewrite received_app, received_cons in R. cbn [received] in R. rewrite N.eqb_refl in R. cbn [app] in R.
  refine (prefix_before p _ _ _ _ R _). intros I. apply heard_in in I as (x & X & Y & Z).
  destruct (part_in a l x B X Y) as (w & W & PI). rewrite Z in PI.
  destruct (O Ignoring w tt W (fun s _ => ignoring a w s W) eq_refl) as (_ & t & D & _).
  destruct (drive_reads _ _ _ _ _ D PI) as (u & N). apply N. cbn. rewrite P. reflexivity.
Qed.

Lemma answered_in a l k : In k (answered a l) -> exists x, In x l /\ on x = a /\ In k (says [what x]).
Proof.
  induction l as [|[b w y] l IH]; [contradiction|]. intros I.
  assert (K : In k (answered a l) -> exists x, In x (Entry b w y :: l) /\ on x = a /\ In k (says [what x])).
  { intros J. destruct (IH J) as (x & X & Y). exists x. split; [right; exact X|exact Y]. }
  destruct y as [[]| | | | | |]; cbn [answered] in I; auto; destruct (b =? a) eqn:E; auto; destruct I as [->|I]; auto;
    (eexists; split; [left; reflexivity|]; split; [apply N.eqb_eq; exact E|left; reflexivity]).
Qed.

Lemma says_in k : forall l x, In x l -> In k (says [x]) -> In k (says l).
Proof.
  induction l as [|y l IH]; intros x I S; [contradiction|]. change (y :: l) with ([y] ++ l). rewrite says_app.
  apply in_or_app. destruct I as [->|I]; [left; exact S|right; eauto].
Qed.

Lemma takes_in c : forall l, In c (takes l) -> In (Took c) l.
Proof.
  induction l as [|x l IH]; [contradiction|]. destruct x; cbn [takes]; intros I; try (right; auto; fail).
  destruct I as [->|I]; [left; reflexivity|right; auto].
Qed.

(** A PIN Code Request Negative Reply is never answered as long as the link stays, and any further
    command for the link ends the program. *)
Theorem never_answered n pre e a h1 e1 h2 l :
  in_session rng n pre e a (h1 ++ (e1, IngestHci (PinNegative a)) :: h2) l ->
  ~ In kPinNegative (answered a l) /\ given a h2 = [].
Proof.
  intros S. destruct (session_parts _ _ _ _ _ _ S) as (A & B & _ & (rest & R & L) & O).
  assert (N : ~ In kPinNegative (answered a l)).
  { intros I. apply answered_in in I as (x & X & Y & Z). destruct (part_in a l x B X Y) as (w & W & PI).
    destruct (O (Answering a) w None W (answering a w W) eq_refl) as (_ & t & D & P).
    destruct t; [discriminate|]. apply answering_says in D. cbn [app] in D. rewrite app_nil_r in D.
    pose proof (says_in _ _ _ PI Z) as J. rewrite <- D in J. apply in_map_iff in J as (c & K & J).
    destruct c; try discriminate K. apply takes_in in J.
    destruct (O Ignoring w tt W (fun s _ => ignoring a w s W) eq_refl) as (_ & t & D2 & _).
    destruct (drive_reads _ _ _ _ _ D2 J) as (u & U). apply U. reflexivity. }
  split; [exact N|].
  rewrite given_app, given_cons in R. cbn [given target] in R. rewrite N.eqb_refl in R. cbn [kind_of app] in R.
  destruct (prefix_before _ _ _ _ _ R N) as (s & E). rewrite E, <- app_assoc in R. apply app_inv_head in R. subst rest.
  rewrite app_length in L. cbn in L. destruct (given a h2); [reflexivity|]. cbn in L. lia.
Qed.

(** * Polling ends *)

Lemma conserved_messages l o k : conserved l o k -> (messages k <= messages l)%nat.
Proof.
  intros (A & B). unfold messages. rewrite B, app_length. unfold held_command in A.
  destruct (hci l), (hci k); try lia. symmetry in A. apply app_eq_nil in A as [_ A]. discriminate.
Qed.

Lemma poll_finishes e p l n : waits p = true -> at_stop (poll rng e p l n) = Finished ->
  (messages (at_link (poll rng e p l n)) < messages l)%nat.
Proof.
  intros W F. pose proof (poll_conserves rng e p l n) as C.
  assert (N : takes (done (poll rng e p l n)) <> [] \/ hears (done (poll rng e p l n)) <> []).
  { destruct p; try discriminate W; cbn [poll] in *.
    - destruct (hci l) as [c|]; [|discriminate]. destruct (wanted c); [|discriminate]. left. discriminate.
    - destruct (queue l) as [|x q]; [discriminate|]. destruct (wanted x); [|discriminate]. right. discriminate.
    - cbn zeta in *. destruct (queue l) as [|[] q]; try discriminate; right; discriminate.
    - destruct (hci l) as [[]|]; try discriminate; left; discriminate. }
  destruct C as (A & B). unfold messages. rewrite B, app_length. unfold held_command in A.
  destruct N as [N|N].
  - destruct (hci l) as [c|].
    + destruct (takes (done (poll rng e p l n))) as [|x ts]; [congruence|]. cbn in A. injection A as _ A.
      symmetry in A. apply app_eq_nil in A as [_ A]. destruct (hci (at_link (poll rng e p l n))); [discriminate|]. lia.
    + symmetry in A. apply app_eq_nil in A as [A _]. congruence.
  - destruct (hears (done (poll rng e p l n))) as [|x hs]; [congruence|]. cbn [List.length app].
    destruct (hci l), (hci (at_link (poll rng e p l n))); try lia. symmetry in A. apply app_eq_nil in A as [_ A]. discriminate.
Qed.

Lemma spin_ends e first : waits first = true -> forall fuel l n, (messages l <= fuel)%nat ->
  spin rng fuel e first first l n <> Hang.
Proof.
  intros W. induction fuel as [|fuel IH]; intros l n L; cbn [spin]; cbn zeta;
    destruct (at_stop (poll rng e first l n)) as [q| | |] eqn:E; try discriminate.
  - pose proof (poll_finishes e first l n W E). lia.
  - pose proof (poll_finishes e first l n W E).
    specialize (IH (at_link (poll rng e first l n)) (draws (poll rng e first l n)) ltac:(lia)).
    destruct (spin rng fuel e first first (at_link (poll rng e first l n)) (draws (poll rng e first l n)))
      as [[[[q1 k1] o1] n1]| | |]; cbn; congruence.
Qed.

Lemma start_waits w a : w <> Manager -> waits (start w a) = true.
Proof. destruct w; try congruence; reflexivity. Qed.

Lemma spin_ends_too e w a p l n : w <> Manager -> spin rng (S (messages l)) e (start w a) p l n <> Hang.
Proof.
  intros W. cbn [spin]. cbn zeta. destruct (at_stop (poll rng e p l n)) as [q| | |] eqn:E; try discriminate.
  pose proof (conserved_messages _ _ _ (poll_conserves rng e p l n)) as L.
  pose proof (spin_ends e (start w a) (start_waits w a W) (messages l) (at_link (poll rng e p l n))
    (draws (poll rng e p l n)) L) as H.
  destruct (spin rng (messages l) e (start w a) (start w a) (at_link (poll rng e p l n)) (draws (poll rng e p l n)))
    as [[[[q1 k1] o1] n1]| | |]; cbn; congruence.
Qed.

Lemma poll_all_ends e : forall ps l n, (forall w p, In (w, p) ps -> w <> Manager) -> poll_all rng e ps l n <> Hang.
Proof.
  induction ps as [|[w p] ps IH]; intros l n W; cbn [poll_all]; [discriminate|].
  pose proof (spin_ends_too e w (peer l) p l n (W w p (or_introl eq_refl))) as H.
  destruct (spin rng (S (messages l)) e (start w (peer l)) p l n) as [[[[q k1] o1] n1]| | |]; cbn [bind]; try congruence.
  specialize (IH k1 n1 (fun w p I => W w p (or_intror I))).
  destruct (poll_all rng e ps k1 n1) as [[[[qs1 k2] o2] n2]| | |]; cbn [bind]; congruence.
Qed.

(** The slots hold the procedures of the manager, not others. *)
Definition manned (l : list slot) : Prop :=
  Forall (fun s => forall ps, s_procs s = Some ps -> forall w p, In (w, p) ps -> w <> Manager) l.

Lemma tick_ends e : forall l n, manned l ->
  tick_slots rng e l n <> Hang /\
  (forall l' o n', tick_slots rng e l n = Ok (l', o, n') -> manned l').
Proof.
  induction l as [|s l IH]; intros n G; cbn [tick_slots].
  - split; [discriminate|]. intros l' o n' E. injection E as <- <- <-. constructor.
  - apply Forall_cons_iff in G as [G1 G2].
    match goal with |- bind ?x _ <> _ /\ _ => destruct x as [[[s1 o1] n1]| | |] eqn:T1 end; cbn [bind].
    + destruct (IH n1 G2) as (H & H2).
      destruct (tick_slots rng e l n1) as [[[l2 o2] n2]| | |] eqn:T2; cbn [bind]; (split; [congruence|]); intros l' o n' E; try discriminate.
      injection E as <- <- <-. constructor; [|eapply H2; reflexivity].
      apply tick_slot_inv in T1 as [(_ & -> & _)|(ps & qs & k & A & -> & B)]; [exact G1|].
      cbn. intros ps0 X. injection X as <-. intros w p I.
      destruct (poll_all_other rng e _ _ _ _ _ _ _ B) as (_ & _ & N & _).
      assert (J : In w (names ps)) by (rewrite <- N; apply in_map_iff; exists (w, p); auto).
      apply in_map_iff in J as ([w0 p0] & Y & J). cbn in Y. subst w0. exact (G1 ps A w p0 J).
    + split; [discriminate|]. intros. discriminate.
    + split; [discriminate|]. intros. discriminate.
    + exfalso. destruct (s_procs s) as [ps|] eqn:A; [|discriminate].
      pose proof (poll_all_ends e ps (s_link s) n (G1 ps eq_refl)) as H.
      destruct (poll_all rng e ps (s_link s) n) as [[[[qs k] o1] n1]| | |]; cbn in T1; congruence.
Qed.

Lemma manned_at b f l : manned l -> (forall s, s_procs (f s) = s_procs s \/ s_procs (f s) = None \/ exists a, s_procs (f s) = Some (starts a)) ->
  manned (at_peer b f l).
Proof.
  intros M F. apply (forall_at_peer (fun s => forall ps, s_procs s = Some ps -> forall w p, In (w, p) ps -> w <> Manager)); [exact M|].
  intros s X _ ps E w p I. destruct (F s) as [Y|[Y|(a & Y)]]; rewrite Y in E.
  - eapply X; eauto.
  - discriminate.
  - injection E as <-. unfold starts in I. apply in_map_iff in I as (v & V & W). injection V as -> _. intros ->. cbn in W.
    intuition discriminate.
Qed.

Lemma step_ends e m o : manned (slots m) -> step rng e m o <> Hang /\
  (forall m' l, step rng e m o = Ok (m', l) -> manned (slots m')).
Proof.
  intros M. destruct o; cbn [step].
  - assert (K : forall b, bind (answer b (refusal c INVALID_PARAMETERS)) (fun o => Ok (m, o)) <> Hang /\
      (forall m' l, bind (answer b (refusal c INVALID_PARAMETERS)) (fun o => Ok (m, o)) = Ok (m', l) -> manned (slots m'))).
    { intros b. destruct (refusal c INVALID_PARAMETERS); cbn; (split; [discriminate|]); intros m' l E; try discriminate.
      injection E as <- <-. exact M. }
    destruct (target e c) as [b|]; [|apply K]. destruct (find_peer b (slots m)) as [s|]; [|apply K].
    destruct (hci (s_link s)); (split; [discriminate|]); intros m' l E; try discriminate. injection E as <- <-.
    apply manned_at; auto.
  - split; [discriminate|]. intros m' l E. injection E as <- <-. apply manned_at; auto.
  - destruct (find_peer EMPTY (slots m)); (split; [discriminate|]); intros m' l E; try discriminate. injection E as <- <-.
    apply manned_at; [exact M|]. intros x. right. right. exists a. reflexivity.
  - destruct (find_peer a (slots m)) as [s|]; [|split; [discriminate|]; intros; discriminate]. cbn zeta.
    assert (MI : manned (at_peer a (fun _ => idle_slot) (slots m))) by (apply manned_at; auto).
    destruct (hci (s_link s)) as [c|]; [destruct (refusal c UNKNOWN_CONNECTION); cbn|]; (split; [discriminate|]); intros m' l E;
      try discriminate; injection E as <- <-; exact MI.
  - destruct (tick_ends e (slots m) (drawn m) M) as (H & H2).
    destruct (tick_slots rng e (slots m) (drawn m)) as [[[l0 o0] n0]| | |]; cbn [bind]; (split; [congruence|]); intros m' l E; try discriminate.
    injection E as <- <-. eapply H2. reflexivity.
  - split; [discriminate|]. intros m' l E. injection E as <- <-. cbn. repeat constructor; discriminate.
Qed.

Lemma run_ends : forall h m, manned (slots m) -> run rng m h <> Hang.
Proof.
  induction h as [|[e o] h IH]; intros m M; cbn [run]; [discriminate|].
  destruct (step_ends e m o M) as (H & H2).
  destruct (step rng e m o) as [[m1 l1]| | |]; cbn [bind]; try congruence.
  specialize (IH m1 (H2 m1 l1 eq_refl)).
  destruct (run rng m1 h) as [[m2 l2]| | |]; cbn [bind]; congruence.
Qed.

(** No call runs forever. *)
Theorem never_hangs n h : run rng (new_manager n) h <> Hang.
Proof. apply run_ends. cbn. repeat constructor; discriminate. Qed.

End Random.
