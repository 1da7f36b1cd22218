(** The interval of legacy advertising: proofs. *)
From Verif Require Import Prelude Address Rpa Table LeTypes LeAdvertise LeLists LeScan LeInitiate LeHost LeTac LeFrame LeStep LeSets LeOutputs LeHistory.
From Verif Require Import LeListsSpec LeListsProofs LeAdvertSpec LeAdvertProofs LeAdvertSends LeFilterSpec LeFilterMore LeFilterAdv LeTimeSpec LeTime LeTimeCount LeEventsSpec LeEvents LePaceSpec.
Open Scope N_scope.

Section WithController.
Variable aes : list N -> list N -> list N.
Variable rng : N -> N.
Variable cfg : config.
Notation step := (step aes rng cfg).
Notation history := (history aes rng cfg).

Lemma never_enabled h : (forall e, In e h -> legacy_only e) -> forall y, enabled_by y h = None.
Proof.
  induction h as [|e h IH]; intros AL y; cbn [enabled_by]; [reflexivity|].
  specialize (IH (fun e I => AL e (or_intror I)) y). pose proof (AL e (or_introl eq_refl)) as A. unfold legacy_only in A.
  destruct (what e) as [c|p|]; try exact IH. destruct c; try exact IH; [reflexivity|]. destruct on; [contradiction|exact IH].
Qed.

(** What a tick does with legacy advertising *)
Lemma tick_paced h s now s' st out : history h s -> (forall e, In e h -> legacy_only e) -> step now s Tick = Ok s' st out ->
  l_interval (legacy s') = l_interval (legacy s) /\
  if l_enabled (legacy s') then l_enabled (legacy s) = true /\ adverts out = (if l_next (legacy s) <=? now then 1 else 0)
    /\ l_next (legacy s') = (if l_next (legacy s) <=? now then now + l_interval (legacy s) * 625 else l_next (legacy s))
  else adverts out = 0.
Proof.
  intros HI AL H.
  assert (Q : forall y b, In (y, b) (sets s) -> enabled b = false).
  { intros y b I. destruct (enabled b) eqn:EB; [|reflexivity]. exfalso.
    destruct (enabled_timed _ _ _ _ _ HI y b (in_lookup_nodup _ _ _ (sets_nodup _ _ _ _ _ HI) I) EB) as (t & d & D & _).
    rewrite (never_enabled _ AL) in D. discriminate. }
  cbn [LeHost.step] in H. unfold tick, le_advertising in H.
  destruct (legacy_timeout now s) as [s1 o1] eqn:E1. destruct (legacy_advertise now s1) as [s2 o2] eqn:E2.
  destruct (advertise_sets _ _ _) as [[m o3]|] eqn:A; [|discriminate].
  destruct (le_scanning now _) as [s3 o4] eqn:S. pose proof (le_scanning_filter rng _ _ _ _ S) as (_ & _ & _ & _ & F4).
  apply le_scanning_frame in S as [sc ->]. injection H as <- <- <-.
  rewrite !adverts_app, (adverts_none _ F4).
  assert (T1 : sets s1 = sets s /\ adverts o1 = 0 /\ l_interval (legacy s1) = l_interval (legacy s) /\ l_next (legacy s1) = l_next (legacy s)
    /\ (l_enabled (legacy s1) = true -> l_enabled (legacy s) = true)).
  { unfold legacy_timeout in E1. destruct (l_timeout (legacy s)); [destruct (_ && _) in E1|]; injection E1 as <- <-; le_simpl; repeat split; auto; try discriminate.
    destruct (le_event_unmasked _ _); reflexivity. }
  destruct T1 as (T1 & -> & T2 & T3 & T4).
  assert (T5 : sets s2 = sets s1 /\ l_interval (legacy s2) = l_interval (legacy s1) /\ l_enabled (legacy s2) = l_enabled (legacy s1)
    /\ if l_enabled (legacy s1) then adverts o2 = (if l_next (legacy s1) <=? now then 1 else 0)
         /\ l_next (legacy s2) = (if l_next (legacy s1) <=? now then now + l_interval (legacy s1) * 625 else l_next (legacy s1)) else adverts o2 = 0).
  { unfold legacy_advertise in E2. destruct (l_enabled (legacy s1)) eqn:EN; cbn [andb] in E2; [|injection E2 as <- <-; rewrite EN; repeat split; reflexivity].
    destruct (_ <=? now); [destruct (legacy_pdu_of _) in E2|]; injection E2 as <- <-; le_simpl; rewrite ?EN; repeat split; reflexivity. }
  destruct T5 as (T5 & T6 & T7 & T8). rewrite (advertise_sets_quiet _ _ _ _ _ A) by (rewrite T5, T1; exact Q).
  le_simpl. rewrite T6, T7, T2. split; [reflexivity|]. rewrite T2, T3 in T8. destruct (l_enabled (legacy s1)); [|lia].
  destruct T8 as [-> ->]. split; [auto|]. split; [lia|reflexivity].
Qed.

Lemma legacy_paced_inv h s : history h s -> (forall e, In e h -> legacy_only e) ->
  l_interval (legacy s) = legacy_interval h
  /\ (l_enabled (legacy s) = true -> exists t, legacy_last h = Some t /\ l_next (legacy s) = t + l_interval (legacy s) * 625).
Proof.
  induction 1 as [addr|h s now o s' st out H IH S]; intros AL; [split; [reflexivity|discriminate]|].
  pose proof (fun e I => AL e (or_intror I)) as AL0. destruct (IH AL0) as [IHI IHN]. clear IH.
  cbn [legacy_interval legacy_last what status_of at_time sent].
  destruct (touches o PLegacy) eqn:T.
  2:{ pose proof (step_same _ _ _ _ _ _ _ _ _ S PLegacy T) as E. cbn [same] in E. rewrite E in *.
      destruct o as [[]|p|]; try discriminate T; split; auto. }
  destruct o as [c|p|].
  - destruct c; try discriminate T.
    + cbn [LeHost.step run_command] in S. unfold reset, loud in S. ok S. split; [reflexivity|discriminate].
    + cbn [LeHost.step] in S. unfold_step S. crack S; ok S; le_simpl; split; auto; try congruence.
      all: try (destruct t; reflexivity || discriminate).
      all: try (intros EN; match goal with E : l_enabled (legacy _) = false |- _ => le_simpl_in E; congruence end).
    + cbn [LeHost.step] in S. unfold_step S. destruct (extended_used s); ok S; le_simpl; split; auto.
    + cbn [LeHost.step] in S. unfold_step S. destruct (extended_used s); ok S; le_simpl; split; auto.
    + cbn [LeHost.step run_command] in S. unfold quiet, set_adv_enable, select_legacy in S.
      destruct (extended_used s) in S; [ok S; split; [auto|destruct on; auto]|].
      destruct on; cbn [negb] in S; [|ok S; split; [exact IHI|discriminate]].
      destruct (generate _ _ _ _ _) as [s1 r1] eqn:G1 in S. apply generate_frame in G1 as (l1 & p1 & -> & _).
      destruct (choose_own _ _ _ _) in S; [|ok S; le_simpl; split; auto].
      cbv zeta in S. le_simpl_in S.
      destruct (l_type (legacy s)) eqn:TY; try (destruct (generate _ _ _ _ _) as [s2 r2] eqn:G2 in S; apply generate_frame in G2 as (l2 & p2 & -> & _));
        ok S; le_simpl; (split; [exact IHI|]); intros _; exists now; split; reflexivity.
  - destruct p; try discriminate T. cbn [LeHost.step receive] in S. unfold of_effect, receive_connect, legacy_connect_request in S.
    crack S; try discriminate; repeat match goal with E : inl _ = inl _ |- _ => injection E as <- | E : inr _ = inr _ |- _ => injection E as <- end.
    all: try discriminate.
    all: try ok S. all: repeat match goal with E : Next _ _ = Next _ _ |- _ => injection E as <- <- end.
    all: frames; le_simpl; le_simpl_all; split; auto; discriminate.
  - destruct (tick_paced _ _ _ _ _ _ H AL0 S) as [A B]. split; [congruence|]. intros EN. rewrite EN in B. destruct B as (B1 & B2 & B3).
    rewrite B2, B3, A. destruct (IHN B1) as (t & D & E). destruct (_ <=? now); [exists now; split; reflexivity|exists t; split; [exact D|exact E]].
Qed.

(** Legacy advertising on its own: a tick sends a packet when the interval has passed *)
Theorem legacy_paced h s now s' st out : history h s -> (forall e, In e h -> legacy_only e) -> step now s Tick = Ok s' st out ->
  if l_enabled (legacy s') then exists t, legacy_last h = Some t /\ adverts out = if t + legacy_interval h * 625 <=? now then 1 else 0
  else adverts out = 0.
Proof.
  intros H AL S. destruct (tick_paced _ _ _ _ _ _ H AL S) as [_ B]. destruct (l_enabled (legacy s')); [|exact B].
  destruct B as (B1 & B2 & _). destruct (legacy_paced_inv _ _ H AL) as [I N]. destruct (N B1) as (t & D & E). exists t. split; [exact D|].
  now rewrite B2, E, I.
Qed.
End WithController.
