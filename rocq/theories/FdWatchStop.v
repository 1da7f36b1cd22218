(** Careful clients start and stop the watcher any number of times: proofs for FdWatchSpec.v. *)
From Verif Require Import Prelude FdWatch FdWatchSpec FdWatchProofs FdWatchCalls FdWatchLive.
From Coq Require Import ZArith Sorting.Sorted.
Open Scope Z_scope.

Lemma orderly_runs s r s' : orderly s r s' -> runs s r s'.
Proof. induction 1; econstructor; eauto. Qed.

Inductive calm (s : state) : Prop :=
| calm_up :
    (forall t, stopping (clients s t) = false) ->
    (forall t, starter (clients s t) = true -> joinable s = false /\ running s = true) ->
    (forall t u, starter (clients s t) = true -> starter (clients s u) = true -> t = u) ->
    (running s = false -> joinable s = false) ->
    (running s = true -> joinable s = true \/ exists t, starter (clients s t) = true) -> calm s
| calm_down t :
    stopping (clients s t) = true -> (forall u, u <> t -> clients s u = Free) -> running s = false ->
    joinable s = (match clients s t with Clearing => false | _ => true end) -> calm s.

Lemma calm_same s s' : clients s' = clients s -> joinable s' = joinable s -> running s' = running s -> calm s -> calm s'.
Proof.
  intros C J R [A1 A2 A3 A4 A5|t B1 B2 B3 B4]; [apply calm_up|apply (calm_down _ t)]; rewrite ?C, ?J, ?R; auto.
Qed.
(** A client that neither starts nor stops the thread moves on *)
Lemma calm_client s s' t v : clients s' = clients (set_client t v s) -> joinable s' = joinable s -> running s' = running s ->
  stopping (clients s t) = false -> starter (clients s t) = false -> clients s t <> Free \/ (forall u, stopping (clients s u) = false) ->
  stopping v = false -> starter v = false -> calm s -> calm s'.
Proof.
  intros C J R N1 N2 NF V1 V2 [A1 A2 A3 A4 A5|u B1 B2 B3 B4].
  - assert (forall u, starter (clients s' u) = true -> starter (clients s u) = true) as K by (intros u; rewrite C; fields; destruct (N.eqb u t); [congruence|auto]).
    apply calm_up; rewrite ?J, ?R.
    + intros u. rewrite C. fields. destruct (N.eqb u t); auto.
    + intros u H. exact (A2 u (K u H)).
    + intros u w H1 H2. exact (A3 u w (K u H1) (K w H2)).
    + exact A4.
    + intros H. destruct (A5 H) as [X|(u & X)]; [auto|right; exists u]. rewrite C. fields. destruct (N.eqb_spec u t) as [->|]; [congruence|exact X].
  - exfalso. destruct NF as [NF|NF]; [|rewrite NF in B1; discriminate]. destruct (N.eqb_spec t u) as [->|N]; [congruence|]. now apply NF, B2.
Qed.

Lemma calm_step s a s' e : step s a = Next s' e -> careful s a -> good s -> calm s -> calm s'.
Proof.
  intros S V G H. destruct a; cbn [step careful] in S, V.
  - (* Watch *) destruct (clients s t) eqn:C; try discriminate. destruct (mutex_free s); [|discriminate]. injection S as <- <-.
    apply (calm_client s _ t (Inserted f)); rewrite ?C; auto.
  - (* Exchange *) destruct (clients s t) eqn:C; try discriminate. destruct (running s) eqn:R; injection S as <- <-.
    + apply (calm_client s _ t (Notifying f)); rewrite ?C; auto. left. discriminate.
    + destruct H as [A1 A2 A3 A4 A5|u B1 B2 B3 B4].
      * assert (forall u, starter (clients s u) = false) as NS by (intros u; destruct (starter (clients s u)) eqn:X; [destruct (A2 u X); congruence|reflexivity]).
        apply calm_up; fields.
        -- intros u. destruct (N.eqb u t); auto.
        -- intros u _. auto.
        -- intros u w. destruct (N.eqb_spec u t) as [->|]; [|rewrite NS; discriminate]. destruct (N.eqb_spec w t) as [->|]; [auto|rewrite NS; discriminate].
        -- discriminate.
        -- intros _. right. exists t. now rewrite N.eqb_refl.
      * exfalso. destruct (N.eqb_spec t u) as [->|N]; [rewrite C in B1; discriminate|rewrite (B2 _ N) in C; discriminate].
  - (* Pipe *) subst ok. destruct (clients s t) eqn:C; try discriminate. injection S as <- <-.
    destruct H as [A1 A2 A3 A4 A5|u B1 B2 B3 B4].
    + assert (forall u, starter (if N.eqb u t then Spawning f else clients s u) = starter (clients s u)) as K by (intros u; destruct (N.eqb_spec u t) as [->|]; [now rewrite C|reflexivity]).
      apply calm_up; fields; auto.
      * intros u. destruct (N.eqb u t); auto.
      * intros u. rewrite K. exact (A2 u).
      * intros u w. rewrite !K. exact (A3 u w).
      * intros X. destruct (A5 X) as [Y|(u & Y)]; [auto|right; exists u; now rewrite K].
    + exfalso. destruct (N.eqb_spec t u) as [->|N]; [rewrite C in B1; discriminate|rewrite (B2 _ N) in C; discriminate].
  - (* Spawn *) destruct (clients s t) eqn:C; try discriminate. destruct (joinable s) eqn:J; [discriminate|]. injection S as <- <-.
    destruct H as [A1 A2 A3 A4 A5|u B1 B2 B3 B4].
    + destruct (A2 t) as [_ RT]; [now rewrite C|]. assert (forall u, starter (if N.eqb u t then Notifying f else clients s u) = false) as K.
      { intros u. destruct (N.eqb_spec u t) as [->|N]; [reflexivity|]. destruct (starter (clients s u)) eqn:X; [|reflexivity]. exfalso. apply N. apply A3; [exact X|now rewrite C]. }
      apply calm_up; fields; auto.
      * intros u. destruct (N.eqb u t); auto.
      * intros u. rewrite K. discriminate.
      * intros u w. rewrite K. discriminate.
      * congruence.
    + exfalso. destruct (N.eqb_spec t u) as [->|N]; [rewrite C in B1; discriminate|rewrite (B2 _ N) in C; discriminate].
  - (* Notify *) destruct (clients s t) eqn:C; try discriminate; injection S as <- <-.
    + apply (calm_client s _ t Free); fields; rewrite ?notify_clients, ?notify_joinable, ?notify_running, ?C; auto. left. discriminate.
    + destruct H as [A1 A2 A3 A4 A5|u B1 B2 B3 B4]; [specialize (A1 t); rewrite C in A1; discriminate|].
      assert (t = u) as <- by (destruct (N.eqb_spec t u) as [E|N]; [exact E|rewrite (B2 _ N) in C; discriminate]).
      apply (calm_down _ t); fields; rewrite ?notify_clients, ?notify_joinable, ?notify_running, ?N.eqb_refl; auto.
      * intros u N. destruct (N.eqb_spec u t); [congruence|auto].
      * rewrite B4, C. reflexivity.
  - (* Unwatch *) destruct (clients s t) eqn:C; try discriminate. destruct (mutex_free s); [|discriminate]. injection S as <- <-. now apply (calm_same s).
  - (* Stop *) destruct (clients s t) eqn:C; try discriminate. destruct (running s) eqn:R; injection S as <- <-; [|exact H].
    destruct H as [A1 A2 A3 A4 A5|u B1 B2 B3 B4]; [|congruence].
    apply (calm_down _ t); fields; rewrite ?N.eqb_refl; auto.
    + intros u N. destruct (N.eqb_spec u t); [congruence|apply V].
    + destruct (A5 R) as [X|(u & X)]; [exact X|]. rewrite V in X. discriminate.
  - (* Join *) destruct (clients s t) eqn:C; try discriminate. destruct (joinable s) eqn:J; [|discriminate]. destruct (place_of s); try discriminate. injection S as <- <-.
    destruct H as [A1 A2 A3 A4 A5|u B1 B2 B3 B4]; [specialize (A1 t); rewrite C in A1; discriminate|].
    assert (t = u) as <- by (destruct (N.eqb_spec t u) as [E|N]; [exact E|rewrite (B2 _ N) in C; discriminate]).
    apply (calm_down _ t); fields; rewrite ?N.eqb_refl; auto. intros u N. destruct (N.eqb_spec u t); [congruence|auto].
  - (* Clear *) destruct (clients s t) eqn:C; try discriminate. destruct (mutex_free s); [|discriminate]. injection S as <- <-.
    destruct H as [A1 A2 A3 A4 A5|u B1 B2 B3 B4]; [specialize (A1 t); rewrite C in A1; discriminate|].
    assert (t = u) as <- by (destruct (N.eqb_spec t u) as [E|N]; [exact E|rewrite (B2 _ N) in C; discriminate]).
    assert (forall u, (if N.eqb u t then Free else clients s u) = Free) as K by (intros u; destruct (N.eqb_spec u t); auto).
    rewrite C in B4. apply calm_up; fields; try (intros u; rewrite K; discriminate); auto.
    + intros u. rewrite K. reflexivity.
    + congruence.
  - (* Check *) destruct (place_of s); try discriminate; injection S as <- <-; now apply (calm_same s).
  - crack S. injection S as <- <-. now apply (calm_same s).
  - crack S; injection S as <- <-; now apply (calm_same s).
  - crack S. injection S as <- <-. now apply (calm_same s).
  - crack S; injection S as <- <-; now apply (calm_same s).
  - crack S. injection S as <- <-. now apply (calm_same s).
  - crack S. injection S as <- <-. now apply (calm_same s).
  - crack S. injection S as <- <-. now apply (calm_same s).
  - (* InWatch *) crack S. injection S as <- <-. apply (calm_same s); rewrite ?notify_clients, ?notify_joinable, ?notify_running; auto.
  - crack S. injection S as <- <-. now apply (calm_same s).
  - destruct V.
  - injection S as <- <-. now apply (calm_same s).
Qed.

Lemma calm_start : calm start.
Proof. apply calm_up; cbn; auto; discriminate. Qed.
Lemma orderly_calm s r s' : orderly s r s' -> good s -> calm s -> good s' /\ calm s'.
Proof.
  induction 1 as [s|s a s1 e r s' V S R IH]; auto. intros G H. apply IH; [exact (good_step _ _ _ _ S G)|exact (calm_step _ _ _ _ S V G H)].
Qed.

(** Nothing terminates the program. *)
Lemma never_terminated r s a : orderly start r s -> careful s a -> step s a <> Terminated.
Proof.
  intros R V. destruct (orderly_calm _ _ _ R good_start calm_start) as [G H]. destruct a; cbn [step]; intros E; crack E; try discriminate E.
  - destruct H as [A1 A2 A3 A4 A5|u B1 B2 B3 B4].
    + destruct (A2 t); [now rewrite Heqc|]. congruence.
    + destruct (N.eqb_spec t u) as [->|N]; [rewrite Heqc in B1; discriminate|rewrite (B2 _ N) in Heqc; discriminate].
  - destruct H as [A1 A2 A3 A4 A5|u B1 B2 B3 B4]; [specialize (A1 t); rewrite Heqc in A1; discriminate|].
    assert (t = u) as <- by (destruct (N.eqb_spec t u) as [X|N]; [exact X|rewrite (B2 _ N) in Heqc; discriminate]). rewrite Heqc in B4. congruence.
  - destruct H as [A1 A2 A3 A4 A5|u B1 B2 B3 B4]; [|cbn [careful] in V; rewrite V in B1; discriminate].
    specialize (A4 Heqb). apply (g_thread _ G) in A4. congruence.
Qed.

(** * The stop ends *)
Lemma ends_from_top s : place_of s = Top -> running s = false -> exists r s', runs s r s' /\ alone r /\ place_of s' = Off.
Proof.
  intros P RN. exists [(Check, [])], (set_place Off s). split; [econstructor; [cbn [step]; rewrite P, RN; reflexivity|constructor]|]. split; [intros x [<-|[]]; reflexivity|reflexivity].
Qed.
Lemma ends_drained s l n : place_of s = Woken l n -> running s = false -> exists r s', runs s r s' /\ alone r /\ place_of s' = Off.
Proof.
  intros P RN. exists [(Drain, []); (Check, [])], (set_place Off (set_place (Drained l) (if n then set_pipe (Some 0%N) s else s))).
  assert (running (if n then set_pipe (Some 0%N) s else s) = false) as RN' by (destruct n; exact RN).
  split; [|split; [intros x [<-|[<-|[]]]; reflexivity|reflexivity]]. econstructor; [cbn [step]; rewrite P; reflexivity|]. econstructor; [cbn [step]; fields; rewrite RN'; reflexivity|constructor].
Qed.
Lemma ends s : good s -> all_fit s -> running s = false -> (forall t, clients s t <> Stopping /\ starter (clients s t) = false) -> exists r s', runs s r s' /\ alone r /\ place_of s' = Off.
Proof.
  intros G F RN NS.
  assert (forall r1 s1 (P : state -> Prop), runs s r1 s1 -> alone r1 -> (running s1 = false -> exists r s', runs s1 r s' /\ alone r /\ place_of s' = Off) -> exists r s', runs s r s' /\ alone r /\ place_of s' = Off) as K.
  { intros r1 s1 _ R1 A1 H. destruct (alone_kept _ _ _ R1 A1) as (_ & K2 & _). destruct H as (r & s' & R & A & P); [congruence|]. exists (r1 ++ r), s'. split; [apply runs_app; eauto|]. split; [now apply alone_app|exact P]. }
  assert (noise s -> full (pipe s)) as FU by (intros [X|(t & [X|(g & X)])]; [exact X|destruct (NS t); congruence|destruct (NS t) as [_ Y]; rewrite X in Y; discriminate]).
  destruct (place_of s) as [| | |l|l n|l|l|l] eqn:P.
  - exists [], s. split; [constructor|]. split; [intros x []|exact P].
  - now apply ends_from_top.
  - set (k := map fst (watched s)). destruct (wake (set_place (Asleep k) s) k eq_refl) as (n & W); [left; fields; apply FU, (g_stop _ G); auto|]. fields.
    apply (K [(SetUp, []); (Wake, [])] (set_place (Woken (List.filter (readable s) k) n) (set_place (Asleep k) s)) (fun _ => True)); [|intros x [<-|[<-|[]]]; reflexivity|intros RN'; eapply ends_drained; [reflexivity|exact RN']].
    econstructor; [cbn [step]; rewrite P, (fit_forallb _ F); reflexivity|]. econstructor; [exact W|constructor].
  - destruct (wake s l P) as (n & W); [left; apply FU, (g_stop _ G); eauto|].
    apply (K [(Wake, [])] (set_place (Woken (List.filter (readable s) l) n) s) (fun _ => True)); [econstructor; [exact W|constructor]|intros x [<-|[]]; reflexivity|intros RN'; eapply ends_drained; [reflexivity|exact RN']].
  - now apply (ends_drained s l n).
  - exists [(Check, [])], (set_place Off s). split; [econstructor; [cbn [step]; rewrite P, RN; reflexivity|constructor]|]. split; [intros x [<-|[]]; reflexivity|reflexivity].
  - set (todo := List.filter (fun e => in_list (fst e) l) (watched s)). destruct (finish todo (set_place (Calling todo) s) eq_refl) as (r2 & s2 & R2 & A2 & _ & T).
    apply (K ((Take, []) :: r2) s2 (fun _ => True)); [econstructor; [cbn [step]; rewrite P; reflexivity|exact R2]|now apply alone_cons|now apply ends_from_top].
  - destruct (finish l s P) as (r1 & s1 & R1 & A1 & _ & T). apply (K r1 s1 (fun _ => True) R1 A1). now apply ends_from_top.
Qed.

Definition with_stop (t : N) (r : run) : Prop := forall x, In x r -> watcher_act (fst x) = true \/ stop_act t (fst x) = true.
Lemma stop_app t r1 r2 : with_stop t r1 -> with_stop t r2 -> with_stop t (r1 ++ r2).
Proof. intros A B x I. apply in_app_iff in I as [I|I]; auto. Qed.

Lemma clear_ends s t : clients s t = Clearing -> mutex_free s = true -> step s (Clear t) = Next (set_client t Free (set_watched [] s)) [Returned t true].
Proof. intros C M. cbn [step]. now rewrite C, M. Qed.

Lemma stop_returns r s t : orderly start r s -> (forall x, In x r -> valid (fst x) = true) -> stopping (clients s t) = true ->
  exists r' s', runs s (r' ++ [(Clear t, [Returned t true])]) s' /\ with_stop t r' /\ place_of s' = Off /\ watched s' = [].
Proof.
  intros R V T. pose proof (orderly_runs _ _ _ R) as R0. destruct (orderly_calm _ _ _ R good_start calm_start) as [G H]. pose proof (fit_runs _ _ R0 V) as F.
  destruct H as [A1 A2 A3 A4 A5|u B1 B2 B3 B4]; [rewrite A1 in T; discriminate|].
  assert (t = u) as <- by (destruct (N.eqb_spec t u) as [X|N]; [exact X|rewrite (B2 _ N) in T; discriminate]).
  assert (forall s1, good s1 -> all_fit s1 -> clients s1 t = Joining -> (forall u, u <> t -> clients s1 u = Free) -> running s1 = false -> joinable s1 = true ->
    exists r' s', runs s1 (r' ++ [(Clear t, [Returned t true])]) s' /\ with_stop t r' /\ place_of s' = Off /\ watched s' = []) as K.
  { intros s1 G1 F1 C1 O1 R1 J1. destruct (ends s1 G1 F1 R1) as (r2 & s2 & R2 & A2 & P2).
    { intros u. destruct (N.eqb_spec u t) as [->|N]; [rewrite C1; split; [discriminate|reflexivity]|rewrite (O1 _ N); split; [discriminate|reflexivity]]. }
    destruct (alone_kept _ _ _ R2 A2) as (_ & _ & K3 & K4 & _). set (s3 := set_client t Clearing (set_joinable false s2)).
    exists (r2 ++ [(Join t, [])]), (set_client t Free (set_watched [] s3)). rewrite <- app_assoc. cbn [app]. split.
    - apply runs_app. exists s2. split; [exact R2|]. econstructor; [cbn [step]; rewrite K4, C1, K3, J1, P2; reflexivity|].
      econstructor; [apply clear_ends; [apply this|unfold mutex_free; fields; now rewrite P2]|constructor].
    - split; [|split; [exact P2|reflexivity]]. apply stop_app; [intros x I; left; exact (A2 x I)|]. intros x [<-|[]]. right. cbn. apply N.eqb_refl. }
  destruct (clients s t) eqn:C; try discriminate T.
  - set (s1 := set_client t Joining (notify s)). assert (step s (Notify t) = Next s1 []) as S1 by (cbn [step]; now rewrite C).
    destruct (K s1) as (r' & s' & R' & W & P' & E'); [exact (good_step _ _ _ _ S1 G)|exact (fit_step _ _ _ _ S1 eq_refl F)|apply this| |unfold s1; fields; now rewrite notify_running|unfold s1; fields; now rewrite notify_joinable|].
    { intros u N. unfold s1. rewrite other by exact N. rewrite notify_clients. auto. }
    exists ((Notify t, []) :: r'), s'. split; [cbn [app]; econstructor; [exact S1|exact R']|]. split; [|auto]. intros x [<-|I]; [right; apply N.eqb_refl|auto].
  - exact (K s G F C B2 B3 B4).
  - apply (g_thread _ G) in B4. exists [], (set_client t Free (set_watched [] s)). split; [|split; [intros x []|split; [exact B4|reflexivity]]].
    econstructor; [|constructor]. apply clear_ends; [exact C|unfold mutex_free; now rewrite B4].
Qed.

(** ... and then the callbacks are silent until a descriptor is watched again. *)
Lemma stopped_silent r s t e r' s' : orderly start (r ++ [(Clear t, e)]) s -> runs s r' s' -> free_of any_watch r' -> calls_of r' = [].
Proof.
  intros R. assert (place_of s = Off /\ quiet s) as [P Q].
  { pose proof (orderly_calm _ _ _ R good_start calm_start) as [_ H0]. revert R H0.
    generalize good_start calm_start. generalize start. induction r as [|[a ea] r IH]; cbn [app]; intros s0 G0 C0 R HH; inversion R as [|? ? s1 ? ? ? V S R']; subst.
    - inversion R'; subst. cbn [step] in S. destruct (clients s0 t) eqn:C; try discriminate. destruct (mutex_free s0); [|discriminate]. injection S as <- <-.
      destruct C0 as [A1 A2 A3 A4 A5|u B1 B2 B3 B4]; [specialize (A1 t); rewrite C in A1; discriminate|].
      assert (t = u) as <- by (destruct (N.eqb_spec t u) as [X|N]; [exact X|rewrite (B2 _ N) in C; discriminate]). rewrite C in B4. apply (g_thread _ G0) in B4. split; [exact B4|].
      intros u. fields. destruct (N.eqb_spec u t); auto.
    - apply (IH s1); [exact (good_step _ _ _ _ S G0)|exact (calm_step _ _ _ _ S V G0 C0)|exact R'|exact HH]. }
  intros R'. assert (forall t, clients s t = Free \/ stopping (clients s t) = true) as Z by (intros u; left; apply Q). clear R Q. revert P Z. induction R' as [s|s a s1 e1 r' s' S R' IH]; intros P Z F; [reflexivity|].
  assert (any_watch a = false) as W by exact (F (a, e1) (or_introl eq_refl)).
  assert (is_spawn a = false) as NS. { destruct a; try reflexivity. cbn [step] in S. destruct (Z t0) as [X|X]; destruct (clients s t0); discriminate. }
  destruct (off_step _ _ _ _ S NS P) as [P1 C1]. change ((a, e1) :: r') with ([(a, e1)] ++ r'). rewrite calls_app, C1. apply IH; [exact P1| |intros y J; apply F; now right].
  intros u. specialize (Z u) as Zu. destruct a; try discriminate W; try discriminate NS; cbn [step] in S; rewrite ?P in S; try discriminate S; try (crack S; injection S as <- <-; fields; rewrite ?notify_clients; exact Zu);
    try (specialize (Z t0); crack S; try discriminate S; injection S as <- <-; fields; rewrite ?notify_clients; fields; try exact Zu; destruct (N.eqb_spec u t0); auto; destruct Z; discriminate).
Qed.

(** Clients that never stop the thread take care. *)
Lemma without_stop r s : runs start r s -> free_of stops r -> (forall x, In x r -> pipe_made (fst x) = true) -> orderly start r s.
Proof.
  intros R F PM. assert (forall t, stopping (clients start t) = false) as Z by reflexivity. revert Z. induction R as [s|s a s1 e r s' S R IH]; intros Z; [constructor|].
  assert (stops a = false) as NS by exact (F (a, e) (or_introl eq_refl)). assert (pipe_made a = true) as P by exact (PM (a, e) (or_introl eq_refl)).
  econstructor; [|exact S|].
  - destruct a; cbn [careful]; try discriminate NS; auto. now destruct ok.
  - apply IH; [intros x I; apply F; now right|intros x I; apply PM; now right|]. intros u. specialize (Z u) as Zu.
    destruct a; try discriminate NS; cbn [step] in S; crack S; try discriminate S; injection S as <- <-; fields; rewrite ?notify_clients; fields; try exact Zu;
      try (destruct (N.eqb u t); [reflexivity|exact Zu]); specialize (Z t); rewrite Heqc in Z; discriminate Z.
Qed.
Lemma never_terminated_without_stop r s a : runs start r s -> free_of stops r -> (forall x, In x r -> pipe_made (fst x) = true) -> stops a = false -> pipe_made a = true -> step s a <> Terminated.
Proof.
  intros R F PM NS P. pose proof (without_stop _ _ R F PM) as O. intros E. apply (never_terminated _ _ a O); [|exact E].
  destruct a; cbn [careful]; try discriminate NS; auto; try (now destruct ok).
  all: intros u; destruct (orderly_calm _ _ _ O good_start calm_start) as [_ H]; destruct H as [A1 A2 A3 A4 A5|v B1 B2 B3 B4]; [apply A1|exfalso].
  all: clear - R F PM B1; assert (forall t, stopping (clients s t) = false) as Z; [|rewrite Z in B1; discriminate].
  all: clear v B1; assert (forall t, stopping (clients start t) = false) as Z by reflexivity; revert Z; induction R as [s|s a s1 e r s' S R IH]; intros Z; [exact Z|].
  all: apply IH; [intros x I; apply F; now right|intros x I; apply PM; now right|]; assert (stops a = false) as NS by exact (F (a, e) (or_introl eq_refl)); intros u; specialize (Z u) as Zu.
  all: destruct a; try discriminate NS; cbn [step] in S; crack S; try discriminate S; injection S as <- <-; fields; rewrite ?notify_clients; fields; try exact Zu;
      try (destruct (N.eqb u t); [reflexivity|exact Zu]); specialize (Z t); rewrite Heqc in Z; discriminate Z.
Qed.
