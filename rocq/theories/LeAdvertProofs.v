(** Proofs about LE advertising. *)
From Verif Require Import Prelude Address Rpa Table LeTypes LeAdvertise LeLists LeScan LeInitiate LeHost LeTac LeFrame LeStep.
From Verif Require Import LeHistory LeListsProofs LeSets LeAdvertSpec.
Open Scope N_scope.

Section WithController.
Variable aes : list N -> list N -> list N.
Variable rng : N -> N.
Variable cfg : config.
Notation step := (step aes rng cfg).
Notation history := (history aes rng cfg).

(** * Families of commands *)

Definition flags_are (f : option family) (s : le) : Prop :=
  match f with
  | None => legacy_used s = false /\ extended_used s = false
  | Some Legacy => legacy_used s = true /\ extended_used s = false
  | Some Extended => legacy_used s = false /\ extended_used s = true
  end.

Definition checked (c : command) : option family := if unchecked c then None else family_of c.

Lemma ext_enable_flags : forall now on l s s' st, set_ext_enable aes rng now on l s = Done s' st ->
  legacy_used s' = legacy_used s /\ extended_used s' = negb (legacy_used s) || extended_used s.
Proof.
  unfold set_ext_enable, select_extended. intros now on l s s' st H. destruct (legacy_used s) eqn:LU; [injection H as <- <-; auto|].
  cbn [negb orb].
  destruct (check_handles _ _ _); try discriminate; [|injection H as <- <-; auto].
  destruct (negb on && is_empty l); [injection H as <- <-; auto|].
  destruct (is_empty l); [injection H as <- <-; auto|].
  destruct (negb on).
  - injection H as <- <-. destruct (stop_sets_frame l (with_extended_used true s)) as [m ->]. auto.
  - destruct (prepare_sets aes rng l _) as [s1 r] eqn:E.
    destruct (prepare_sets_frame _ _ _ _ _ _ E) as (m1 & l1 & p1 & -> & I1).
    destruct r; [injection H as <- <-; auto|].
    destruct (start_sets_frame now l (with_sets m1 (with_rand_pos p1 (with_resolving l1 (with_extended_used true s))))) as [m M].
    injection H as <- <-. rewrite M. auto.
Qed.

Lemma flags_step : forall now s c s' st out, step now s (Command c) = Ok s' st out -> c <> Reset ->
  legacy_used s' = match checked c with Some Legacy => negb (extended_used s) || legacy_used s | _ => legacy_used s end
  /\ extended_used s' = match checked c with Some Extended => negb (legacy_used s) || extended_used s | _ => extended_used s end.
Proof.
  intros now s c s' st out H NR.
  destruct (touches (Command c) PFlags) eqn:T.
  - destruct c; try discriminate; try (now elim NR); unfold checked; cbn [unchecked family_of].
    all: cbn [LeHost.step] in H; unfold_step H.
    all: try match type of H with context [set_ext_enable] => destruct (set_ext_enable _ _ _ _ _ _) eqn:EE; [|discriminate];
      ok H; now apply ext_enable_flags in EE end.
    all: destruct (extended_used s) eqn:EU; destruct (legacy_used s) eqn:LU; try (ok H; rewrite EU, LU; auto; fail).
    all: crack H; try discriminate;
      repeat match goal with E : Done _ _ = Done _ _ |- _ => injection E as <- <- end; try ok H;
      frames; le_simpl; le_simpl_all; try (rewrite ?EU, ?LU; auto; fail).
    all: try (intuition congruence).
  - destruct (step_same _ _ _ _ _ _ _ _ _ H PFlags T) as [-> ->].
    destruct c; try discriminate; auto.
Qed.

Lemma first_family_command : forall now c st out h, c <> Reset ->
  first_family unchecked (Entry now (Command c) st out :: h)
  = match first_family unchecked h with Some f => Some f | None => checked c end.
Proof. intros now c st out h NR. destruct c; try reflexivity. now elim NR. Qed.

Lemma flags_history : forall h s, history h s -> flags_are (first_family unchecked h) s.
Proof.
  intros h s H. induction H as [addr|h s now o s' st out H IH S]; [cbn; auto|].
  destruct o as [c|p|].
  2,3: cbn [first_family what]; match type of S with step _ _ ?o = _ =>
      assert (touches o PFlags = false) as T by (try destruct p; reflexivity);
      destruct (step_same _ _ _ _ _ _ _ _ _ S PFlags T) as [E1 E2] end;
    unfold flags_are in *; rewrite E1, E2; exact IH.
  assert (c = Reset \/ c <> Reset) as [->|NR] by (destruct c; (left; reflexivity) || (right; discriminate)).
  - cbn [LeHost.step run_command] in S. unfold reset, loud in S. ok S. cbn. auto.
  - destruct (flags_step _ _ _ _ _ _ S NR) as [E1 E2].
    rewrite first_family_command by exact NR. unfold flags_are in *. rewrite E1, E2.
    destruct (first_family unchecked h) as [[]|]; destruct IH as [-> ->]; destruct (checked c) as [[]|]; auto.
Qed.

Lemma other_family_rejected : forall h s now c f g, history h s -> first_family unchecked h = Some f ->
  family_of c = Some g -> unchecked c = false -> g <> f ->
  step now s (Command c) = Ok s (Some COMMAND_DISALLOWED) [].
Proof.
  intros h s now c f g H F G U NE. apply flags_history in H. rewrite F in H. unfold flags_are in H.
  destruct f; destruct H as [H1 H2].
  - assert (g = Extended) as -> by (destruct g; congruence).
    destruct c; try discriminate; cbn [LeHost.step run_command];
      unfold set_ext_parameters, set_ext_data, set_ext_scan_response, set_ext_enable, set_ext_scan_parameters,
        set_ext_scan_enable, ext_create_connection, select_extended; rewrite H1; reflexivity.
  - assert (g = Legacy) as -> by (destruct g; congruence).
    destruct c; try discriminate; cbn [LeHost.step run_command];
      unfold set_adv_parameters, set_adv_data, set_scan_response_data, set_adv_enable, set_scan_parameters,
        set_scan_enable, create_connection, select_legacy; rewrite H2; reflexivity.
Qed.

(** * Invariants of the sets *)

Lemma max_data_limit : forall p, max_data_length p = air_limit p.
Proof. intros [[] [] [] [] [] [] []]; reflexivity. Qed.

Record set_ok (x : N) (a : adv_set) : Prop := SetOk {
  ok_handle : set_handle a = x;
  ok_legal : legacy_pdus (props a) = true -> legal_legacy (props a) = true;
  ok_exclusive : legacy_pdus (props a) = false -> connectable (props a) = true -> scannable (props a) = false;
  ok_adv_size : lenN (bytes (adv_data a)) <= cfg_max_data cfg;
  ok_scan_size : lenN (bytes (scan_data a)) <= cfg_max_data cfg;
  ok_periodic_size : lenN (bytes (periodic_data a)) <= cfg_max_data cfg;
  ok_periodic_1650 : lenN (bytes (periodic_data a)) <= 1650;
  ok_interval : 32 <= interval a;
  ok_no_data : can_have_data (props a) = false -> bytes (adv_data a) = [];
  ok_no_scan : scannable (props a) = false -> bytes (scan_data a) = [];
  ok_legacy_size : legacy_pdus (props a) = true -> lenN (bytes (adv_data a)) <= 31 /\ lenN (bytes (scan_data a)) <= 31;
  ok_complete : enabled a = true -> partial (adv_data a) = false /\ partial (scan_data a) = false;
  ok_fits : enabled a = true -> legacy_pdus (props a) = false -> lenN (bytes (adv_data a)) <= air_limit (props a);
  ok_scan_1650 : lenN (bytes (scan_data a)) <= 1650;
  ok_periodic : periodic_on a = true -> partial (periodic_data a) = false /\ periodic_interval a <> 0 /\ periodic_props (props a);
  ok_pinterval : periodic_interval a <> 0 -> 6 <= periodic_interval a;
  ok_latch : periodic_latch a = true -> periodic_on a = true
}.

Lemma lenN_nil_le : forall (n : N), lenN (@nil N) <= n.
Proof. intros n. rewrite lenN_nil. lia. Qed.

Lemma set_ok_new : forall x e, params_ok e (new_set x) -> set_ok x (apply_params e (new_set x)).
Proof.
  intros x e P. unfold params_ok in P. destruct P as (P1 & P2 & P3 & P4 & P5 & P6 & P7 & P8 & P9 & P10 & P11 & P12).
  unfold new_set in *. le_simpl_all. constructor; unfold apply_params; le_simpl; intros; try discriminate; auto using lenN_nil_le; try tauto.
Qed.

(** A step of the advertising procedure changes counters and the enabled flag only *)
Lemma advertise_set_frame : forall s now a a' o, advertise_set s now a = Some (a', o) ->
  exists e n ne np, a' = with_enabled e (with_num_events n (with_next_event ne (with_next_periodic np a)))
    /\ (e = true -> enabled a = true).
Proof.
  unfold advertise_set. intros s now a a' o H.
  assert (forall a1 o1, set_timeout s now a = (a1, o1) -> exists e, a1 = with_enabled e a /\ (e = true -> enabled a = true)) as F1.
  { unfold set_timeout. intros a1 o1 E. destruct (timeout a); [destruct (_ && _)|]; injection E as <- <-;
      [exists false; split; [reflexivity|discriminate]| |]; exists (enabled a); (split; [destruct a; reflexivity|auto]). }
  destruct (set_timeout s now a) as [a1 o1]. destruct (F1 _ _ eq_refl) as (e1 & -> & EN1). clear F1.
  assert (forall a2 o2, set_limit s (with_enabled e1 a) = (a2, o2) -> exists e, a2 = with_enabled e a /\ (e = true -> enabled a = true)) as F2.
  { unfold set_limit. intros a2 o2 E. destruct (_ && _ && _); injection E as <- <-;
      [exists false; split; [reflexivity|discriminate]|]. exists e1. auto. }
  destruct (set_limit s (with_enabled e1 a)) as [a2 o2]. destruct (F2 _ _ eq_refl) as (e2 & -> & EN2). clear F2.
  assert (forall a3 o3, set_advertise now (with_enabled e2 a) = Some (a3, o3) ->
     exists n ne, a3 = with_enabled e2 (with_num_events n (with_next_event ne a))) as F3.
  { unfold set_advertise. intros a3 o3 E. destruct (_ && _).
    - destruct (legacy_pdus _); [destruct (set_legacy_pdu _)|]; try discriminate; injection E as <- <-; eexists _, _; reflexivity.
    - injection E as <- <-. exists (num_events a), (next_event a). destruct a; reflexivity. }
  destruct (set_advertise now _) as [[a3 o3]|]; [|discriminate]. destruct (F3 _ _ eq_refl) as (n & ne & ->). clear F3.
  unfold set_periodic in H. destruct (_ && _) in H; injection H as <- <-.
  - eexists e2, n, ne, _. split; [reflexivity|exact EN2].
  - exists e2, n, ne, (next_periodic a). split; [destruct a; reflexivity|exact EN2].
Qed.

Lemma apply_fragment_complete : forall o d b, o = COMPLETE \/ o = UNCHANGED -> partial b = false -> partial (apply_fragment o d b) = false.
Proof. intros o d b [->| ->]; cbn; auto. Qed.

Ltac set_case OK :=
  destruct OK; constructor; unfold apply_params, enable_periodic, disable_periodic, disable_set, started, enable_set, new_addresses in *;
  le_simpl; intros; try discriminate; auto using lenN_nil_le; try tauto;
  try (split; auto using lenN_nil_le; tauto).

Lemma set_ok_change : forall s now x o st b b', change cfg s now x o st b b' ->
  (forall a, b = Some a -> set_ok x a) -> forall a', b' = Some a' -> set_ok x a'.
Proof.
  intros s now x o st b b' C OK a' E.
  destruct C; try discriminate; try injection E as <-; try (specialize (OK _ eq_refl)).
  - set_case OK.
  - destruct o as [b|]; [|subst a; now apply set_ok_new]. specialize (OK _ eq_refl). subst a.
    unfold params_ok in H0. destruct H0 as (P1 & P2 & P3 & P4 & P5 & P6 & P7 & P8 & P9 & P10 & P11 & P12).
    set_case OK; try congruence.
    destruct (ok_periodic0 H) as (Q1 & Q2 & Q3). split; [assumption|]. split; [assumption|]. unfold periodic_props. tauto.
  - set_case OK.
    + congruence.
    + specialize (H0 H4) as [-> L]. cbn [apply_fragment bytes]. split; [assumption|]. now apply ok_legacy_size0.
    + destruct (ok_complete0 H4). split; [|assumption]. apply apply_fragment_complete; auto.
    + rewrite <- max_data_limit. auto.
  - set_case OK.
  - set_case OK.
    + rewrite (H0 H7) in *. destruct op; cbn [apply_fragment bytes]; try reflexivity; try congruence; exfalso; apply H3; congruence.
    + destruct (scannable (props a)) eqn:SC.
      * destruct (H1 eq_refl H7) as [-> L]. cbn [apply_fragment bytes]. split; [|assumption]. now apply ok_legacy_size0.
      * rewrite (H0 eq_refl) in *. split; [now apply ok_legacy_size0|].
        destruct op; cbn [apply_fragment bytes]; try apply lenN_nil_le; try congruence; exfalso; apply H3; congruence.
    + destruct (ok_complete0 H7). split; [assumption|]. apply apply_fragment_complete; auto.
  - set_case OK.
  - set_case OK.
    destruct (ok_periodic0 H3) as (Q1 & Q2 & Q3). split; [|auto]. apply apply_fragment_complete; auto.
  - set_case OK.
  - set_case OK; [congruence|]. clear - H. lia.
  - set_case OK.
  - set_case OK.
  - set_case OK.
  - set_case OK.
    all: unfold enable_ok in H1; destruct H1 as (_ & D1 & D2 & _ & F1 & F2). { auto. }
    destruct (connectable (props a)) eqn:CO; [rewrite <- max_data_limit; auto|].
    destruct (F2 H3) as [F3 _]. destruct (scannable (props a)) eqn:SC.
    + rewrite ok_no_data0; [apply lenN_nil_le|]. unfold can_have_data. now rewrite H3, SC.
    + unfold air_limit. now rewrite H3, CO, SC.
  - set_case OK.
  - set_case OK.
  - destruct (advertise_set_frame _ _ _ _ _ H) as (e & n & ne & np & -> & EN). set_case OK.
  - exact (OK _ E).
Qed.

Lemma sets_nodup : forall h s, history h s -> NoDup (keys (sets s)).
Proof.
  intros h s H. revert h s H. apply history_invariant; [constructor|].
  intros now s o s' st out ND S. exact (sets_nodup_step _ _ _ _ _ _ _ _ _ S ND).
Qed.

Lemma sets_ok : forall h s, history h s -> forall x a, lookup (sets s) x = Some a -> set_ok x a.
Proof.
  intros h s H. induction H as [addr|h s now o s' st out H IH S]; [discriminate|].
  intros x a' L. pose proof (step_changes _ _ _ _ _ _ _ _ _ S (sets_nodup _ _ H) x) as C.
  eapply (set_ok_change _ _ _ _ _ _ _ C); [|exact L]. intros a E. exact (IH x a E).
Qed.

(** * Stored data *)

Lemma leaves_stored : forall k x now o st out h, leaves x o st = true ->
  stored_data k x (Entry now o st out :: h) = stored_data k x h.
Proof.
  intros k x now o st out h L. cbn [stored_data what status_of].
  destruct o as [c|p|]; [|reflexivity|reflexivity]. destruct st as [st|]; [|destruct c; reflexivity || discriminate].
  destruct c; try discriminate; cbn [leaves] in L; destruct k; try reflexivity;
    try (destruct st; try reflexivity; try discriminate; apply negb_true_iff in L; cbn [provides]; rewrite ?L; reflexivity).
  all: cbn [provides]; destruct st; try discriminate; try (apply negb_true_iff in L; rewrite L; reflexivity);
    match goal with |- (if ?c then _ else ?r) = _ => destruct c; [destruct r|]; reflexivity end.
Qed.

Lemma stored_history : forall h s, history h s -> forall k x,
  stored_data k x h = option_map (data_of k) (lookup (sets s) x).
Proof.
  intros h s H k x. induction H as [addr|h s now o s' st out H IH S]; [reflexivity|].
  pose proof (step_changes _ _ _ _ _ _ _ _ _ S (sets_nodup _ _ H) x) as C.
  destruct C; try (rewrite leaves_stored by assumption; exact IH).
  all: cbn [stored_data what status_of provides].
  all: try (rewrite IH; destruct k; reflexivity).
  all: try (rewrite N.eqb_refl).
  all: try reflexivity.
  - rewrite IH. destruct o as [b|]; subst a; destruct k; reflexivity.
  - rewrite IH. destruct k, op; cbn [provides]; rewrite ?N.eqb_refl; reflexivity.
  - rewrite IH. destruct H0 as [-> | ->]; destruct k; cbn [provides]; rewrite ?N.eqb_refl; reflexivity.
  - rewrite IH. destruct k, op; cbn [provides]; rewrite ?N.eqb_refl; try reflexivity; congruence.
  - rewrite IH. destruct H0 as [-> | ->]; destruct k; cbn [provides]; rewrite ?N.eqb_refl; reflexivity.
  - rewrite IH. destruct k, op; cbn [provides]; rewrite ?N.eqb_refl; reflexivity.
  - rewrite IH. destruct H0 as [-> | ->]; destruct k; cbn [provides]; rewrite ?N.eqb_refl; reflexivity.
  - rewrite IH. destruct (advertise_set_frame _ _ _ _ _ H0) as (e & n & ne & np & -> & EN). destruct k; reflexivity.
Qed.

Lemma tick_legacy : forall now s s' st out, step now s Tick = Ok s' st out ->
  exists e n, legacy s' = with_l_enabled e (with_l_next n (legacy s)) /\ (e = true -> l_enabled (legacy s) = true).
Proof.
  intros now s s' st out H. cbn [LeHost.step] in H. unfold tick, le_advertising in H.
  assert (exists e o, legacy_timeout now s = (with_legacy (with_l_enabled e (legacy s)) s, o) /\ (e = true -> l_enabled (legacy s) = true)) as (e & o1 & E1 & EN).
  { unfold legacy_timeout. destruct (l_timeout _); [destruct (_ && _)|]; try (eexists false, _; split; [reflexivity|discriminate]);
      exists (l_enabled (legacy s)), []; split; try tauto; destruct s as [? ? ? ? []]; reflexivity. }
  rewrite E1 in H.
  assert (exists n o, legacy_advertise now (with_legacy (with_l_enabled e (legacy s)) s)
            = (with_legacy (with_l_enabled e (with_l_next n (legacy s))) s, o)) as (n & o2 & E2).
  { unfold legacy_advertise. destruct (_ && _); [destruct (legacy_pdu_of _); eexists _, _; reflexivity|].
    exists (l_next (legacy s)), []. destruct s as [? ? ? ? []]; reflexivity. }
  rewrite E2 in H. destruct (advertise_sets _ _ _) as [[m o3]|]; [|discriminate].
  destruct (le_scanning now _) as [s3 o4] eqn:S. apply le_scanning_frame in S as [sc ->].
  injection H as <- <- <-. exists e, n. split; [reflexivity|exact EN].
Qed.

Lemma legacy_stored_history : forall h s, history h s ->
  l_data (legacy s) = legacy_stored false h /\ l_scan_data (legacy s) = legacy_stored true h.
Proof.
  intros h s H. induction H as [addr|h s now o s' st out H [IH1 IH2] S]; [split; reflexivity|].
  assert (forall r, touches o PLegacy = false \/ (forall d, o <> Command (SetAdvData d) /\ o <> Command (SetScanResponseData d)) /\ o <> Command Reset ->
    legacy_stored r (Entry now o st out :: h) = legacy_stored r h) as SAME.
  { intros r [T|[N1 N2]]; cbn [legacy_stored what status_of]; destruct o as [c|p|]; try reflexivity; destruct c; try discriminate; try reflexivity;
      try (destruct (N1 d); congruence); congruence. }
  destruct (touches o PLegacy) eqn:T.
  2:{ pose proof (step_same _ _ _ _ _ _ _ _ _ S PLegacy T) as E. cbn [same] in E. rewrite E, !SAME by now left. auto. }
  destruct o as [c|p|].
  - destruct c; try discriminate.
    + cbn [LeHost.step run_command] in S. unfold reset, loud in S. ok S. split; reflexivity.
    + rewrite !SAME by (right; split; [intros; split|]; discriminate). cbn [LeHost.step] in S. unfold_step S.
      crack S; ok S; le_simpl; auto.
    + cbn [LeHost.step] in S. unfold_step S. destruct (extended_used s); ok S; cbn [legacy_stored what status_of]; le_simpl; auto.
    + cbn [LeHost.step] in S. unfold_step S. destruct (extended_used s); ok S; cbn [legacy_stored what status_of]; le_simpl; auto.
    + rewrite !SAME by (right; split; [intros; split|]; discriminate). cbn [LeHost.step] in S. unfold_step S.
      crack S; try discriminate; ok S; frames; le_simpl; le_simpl_all; auto.
  - rewrite !SAME by (right; split; [intros; split|]; discriminate).
    destruct p; try discriminate. cbn [LeHost.step receive] in S. unfold of_effect, receive_connect, legacy_connect_request in S.
    crack S; try discriminate; repeat match goal with E : inl _ = inl _ |- _ => injection E as <- | E : inr _ = inr _ |- _ => injection E as <- end.
    all: try discriminate.
    all: try ok S. all: repeat match goal with E : Next _ _ = Next _ _ |- _ => injection E as <- <- end.
    all: frames; le_simpl; le_simpl_all; auto.
  - rewrite !SAME by (right; split; [intros; split|]; discriminate).
    destruct (tick_legacy _ _ _ _ _ S) as (e & n & -> & _). auto.
Qed.
End WithController.
