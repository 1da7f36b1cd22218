(** The filter policies of the LE controller along histories: proofs. *)
From Verif Require Import Prelude Address Rpa Table LeTypes LeAdvertise LeLists LeScan LeInitiate LeHost LeTac LeFrame LeStep LeSets LeOutputs LeHistory.
From Verif Require Import LeListsSpec LeListsProofs LeParamsProofs LeFilterSpec LeFilter.
Open Scope N_scope.

Ltac go H :=
  unfold_step H; crack H; try discriminate;
  repeat match goal with E : Done _ _ = Done _ _ |- _ => injection E as <- <- end;
  try ok H.
Ltac nexts := repeat match goal with E : Next _ _ = Next _ _ |- _ => injection E as <- <- end.

Section WithController.
Variable aes : list N -> list N -> list N.
Variable rng : N -> N.
Variable cfg : config.
Notation step := (step aes rng cfg).
Notation history := (history aes rng cfg).
Notation who := (who aes).

(** * The policy of the scanner *)

Lemma le_scanning_filter now s s' o : le_scanning now s = (s', o) ->
  scan_filter (scan s') = scan_filter (scan s)
  /\ (scan_enabled (scan s') = true -> scan_enabled (scan s) = true)
  /\ (forall p, In p (scan_pending (scan s')) -> In p (scan_pending (scan s)))
  /\ (forall e, In (Notified e) o -> reported e = None) /\ (forall p, ~ In (Sent p) o).
Proof.
  unfold le_scanning. intros H. destruct (negb (scan_enabled (scan s))) eqn:EN in H; [injection H as <- <-; repeat split; auto; intros ? []|].
  apply negb_false_iff in EN.
  destruct (_ && _) in H; injection H as <- <-; unfold scan_off; le_simpl; repeat split; auto.
  all: try (intros e I; repeat match type of I with In _ (if ?b then _ else _) => destruct b end; cbn in I; intuition congruence).
  all: try (intros p I; repeat match type of I with In _ (if ?b then _ else _) => destruct b end; cbn in I; intuition congruence).
  all: repeat match goal with |- context [if ?b then _ else _] => destruct b end; le_simpl;
       repeat match goal with |- context [match ?b with DUP_DISABLED => _ | _ => _ end] => destruct b end; le_simpl; auto.
  all: try congruence.
  all: try (intros e [I|[]]; injection I as <-; reflexivity).
  all: try (intros ? []).
  all: try (intros p [I|[]]; discriminate I).
  all: intros p I; apply filter_In in I; tauto.
Qed.

Lemma advertising_scan now s s1 o1 : le_advertising now s = Some (s1, o1) -> scan s1 = scan s.
Proof.
  unfold le_advertising. intros A. destruct (legacy_timeout now s) as [a1 p1] eqn:T1. destruct (legacy_advertise now a1) as [a2 p2] eqn:T2.
  destruct (advertise_sets _ _ _) as [[m o3]|]; [|discriminate]. injection A as <- <-. le_simpl.
  transitivity (scan a1).
  - unfold legacy_advertise in T2. destruct (_ && _); [destruct (legacy_pdu_of _)|]; injection T2 as <- <-; reflexivity.
  - unfold legacy_timeout in T1. destruct (l_timeout _); [destruct (_ && _)|]; injection T1 as <- <-; reflexivity.
Qed.

(** What a step does to the scanner, other than the commands of the scanner *)
Definition sets_scan_policy (o : op) : bool :=
  match o with Command (Reset | SetScanParameters _ _ _ _ _ | SetExtScanParameters _ _ _ _) => true | _ => false end.

Lemma scan_policy_kept now s o s' st out : step now s o = Ok s' st out -> sets_scan_policy o = false ->
  scan_filter (scan s') = scan_filter (scan s).
Proof.
  intros S T. destruct (touches o PScan) eqn:TS.
  2:{ pose proof (step_same _ _ _ _ _ _ _ _ _ S PScan TS) as E. unfold same in E. now rewrite E. }
  destruct o as [c|p|]; cbn [LeHost.step] in S.
  - destruct c; try discriminate; unfold_step S; crack S; try discriminate; ok S; le_simpl; auto.
  - destruct p; try discriminate; cbn [receive] in S.
    1-2: unfold of_effect, receive_legacy_pdu, receive_extended_pdu in S;
      destruct (then_also _ _) as [s1 o1| |] eqn:E; try discriminate; injection S as <- <- <-;
      apply then_also_inv in E; destruct E as (s2 & o2 & o3 & E1 & E2 & ->); frames; le_simpl; auto.
    unfold of_pair in S. destruct (receive_scan_response _ _ _ _ _) as [s1 o1] eqn:E. ok S. frames. le_simpl; auto.
  - unfold tick in S. destruct (le_advertising now s) as [[s1 o1]|] eqn:A; [|discriminate].
    destruct (le_scanning now s1) as [s2 o2] eqn:E. ok S. apply le_scanning_filter in E as [-> _].
    apply advertising_scan in A. now rewrite A.
Qed.
Lemma scan_policy_set now s o s' st out : step now s o = Ok s' st out -> sets_scan_policy o = true -> o <> Command Reset ->
  scan_filter (scan s') = scan_policy_given [Entry now o st out] /\ st = Some SUCCESS
  \/ scan_filter (scan s') = scan_filter (scan s) /\ st <> Some SUCCESS.
Proof.
  intros S T NR. destruct o as [c|p|]; try discriminate. destruct c; try discriminate; [now elim NR| |].
  - unfold_step S; crack S; try discriminate; ok S; le_simpl; auto; right; split; congruence.
  - cbn [LeHost.step run_command] in S. unfold quiet, set_ext_scan_parameters, select_extended in S. 
    destruct (legacy_used s) in S; [ok S; right; split; [reflexivity|discriminate]|].
    le_simpl_in S. do 5 (destruct (_ : bool) in S at 1; [ok S; right; split; [reflexivity|discriminate]|]). ok S. left. split; [|reflexivity]. le_simpl.
    destruct (N.testbit phys 0), (N.testbit phys 2); reflexivity.
Qed.
Lemma scan_policy_skip now o st out h : sets_scan_policy o = false \/ (st <> Some SUCCESS /\ o <> Command Reset) ->
  scan_policy_given (Entry now o st out :: h) = scan_policy_given h.
Proof.
  intros [T|[T NR]]; cbn [scan_policy_given what status_of]; destruct o as [[]| |]; try discriminate; try reflexivity; try (now elim NR);
    destruct st as [[]|]; try reflexivity; now elim T.
Qed.
Lemma scan_policy_history h s : history h s -> scan_filter (scan s) = scan_policy_given h.
Proof.
  induction 1 as [a|h s now o s' st out H IH S]; [reflexivity|].
  destruct (sets_scan_policy o) eqn:T.
  - assert (R : o = Command Reset \/ o <> Command Reset) by (destruct o as [[]| |]; auto; right; discriminate).
    destruct R as [->|R]; [cbn [LeHost.step run_command] in S; unfold reset, loud in S; ok S; reflexivity|].
    destruct (scan_policy_set _ _ _ _ _ _ S T R) as [[E ->]|[E N]].
    + rewrite E. destruct o as [[]| |]; try discriminate; try reflexivity.
    + rewrite E, IH. symmetry. apply scan_policy_skip. auto.
  - rewrite (scan_policy_kept _ _ _ _ _ _ S T), IH. symmetry. apply scan_policy_skip. auto.
Qed.

(** * Reports *)

(** Which packets can lead to a report *)
Definition may_report (o : op) (a : address_with_type) : Prop :=
  exists p, o = Receive p /\ advertiser_of p = Some a.

Definition quiet_event (x : output) : Prop := match x with Notified e => reported e = None | Sent _ => True end.
Lemma quiet_in l e : Forall quiet_event l -> In (Notified e) l -> reported e = None.
Proof. rewrite Forall_forall. intros F I. exact (F _ I). Qed.

Lemma command_reports now s c s' st out e : step now s (Command c) = Ok s' st out -> In (Notified e) out -> reported e = None.
Proof.
  intros H. apply quiet_in. cbn [LeHost.step] in H.
  assert (out = [] -> Forall quiet_event out) as NIL by (intros ->; constructor).
  destruct c; cbn [run_command] in H; unfold quiet in H;
    try (ok H; apply NIL; reflexivity); try (match type of H with (let '(_, _) := ?r in _) = _ => destruct r end; ok H; apply NIL; reflexivity).
  - unfold reset, loud in H. ok H. apply Forall_forall. intros x IN. apply in_map_iff in IN as (kv & <- & _). exact I.
  - destruct (set_ext_enable _ _ _ _ _ _); [|discriminate]. ok H. constructor.
  - unfold cancel_sync, loud in H. destruct (is_some _); ok H; outs; reflexivity.
  - unfold cancel_connection, loud in H. destruct (negb _); ok H; outs; reflexivity.
  - unfold disconnect, loud in H. destruct (lookup _ _); ok H; [|constructor]. unfold disconnection_event. outs; try reflexivity; exact I.
Qed.

Lemma tick_reports now s s' st out e : step now s Tick = Ok s' st out -> In (Notified e) out -> reported e = None.
Proof.
  intros H. apply quiet_in. cbn [LeHost.step] in H. unfold tick, le_advertising in H.
  destruct (legacy_timeout now s) as [s1 o1] eqn:E1.
  destruct (legacy_advertise now s1) as [s2 o2] eqn:E2.
  destruct (advertise_sets s2 now (sets s2)) as [[m o3]|] eqn:E3; [|discriminate].
  destruct (le_scanning now _) as [s4 o4] eqn:E4. injection H as <- <- <-.
  apply Forall_app; split; [apply Forall_app; split; [|apply Forall_app; split]|].
  - unfold legacy_timeout in E1. destruct (l_timeout _); [destruct (_ && _) in E1|]; injection E1 as <- <-; outs; try reflexivity; exact I.
  - unfold legacy_advertise in E2. destruct (_ && _) in E2; [destruct (legacy_pdu_of _)|]; injection E2 as <- <-; outs; try reflexivity; exact I.
  - clear - E3. revert m o3 E3. induction (sets s2) as [|[k a] l IH]; cbn [advertise_sets]; intros m o3 E3; [injection E3 as <- <-; constructor|].
    destruct (advertise_set s2 now a) as [[a1 p1]|] eqn:E; [|discriminate].
    destruct (advertise_sets s2 now l) as [[m1 p2]|]; [|discriminate]. injection E3 as <- <-. apply Forall_app; split; [|exact (IH _ _ eq_refl)].
    unfold advertise_set in E. destruct (set_timeout s2 now a) as [b1 q1] eqn:T1. destruct (set_limit s2 b1) as [b2 q2] eqn:T2.
    destruct (set_advertise now b2) as [[b3 q3]|] eqn:T3; [|discriminate]. destruct (set_periodic now b3) as [b4 q4] eqn:T4. injection E as <- <-.
    repeat (apply Forall_app; split).
    + unfold set_timeout in T1. destruct (timeout a); [|injection T1 as <- <-; constructor]. destruct (_ && _) in T1; injection T1 as <- <-; outs; reflexivity.
    + unfold set_limit in T2. destruct (_ && _ && _) in T2; injection T2 as <- <-; outs; reflexivity.
    + unfold set_advertise in T3. destruct (_ && _) in T3; [|injection T3 as <- <-; constructor].
      destruct (legacy_pdus _); [destruct (set_legacy_pdu _); [|discriminate]|]; injection T3 as <- <-; outs; exact I.
    + unfold set_periodic in T4. destruct (_ && _) in T4; injection T4 as <- <-; outs; exact I.
  - apply le_scanning_filter in E4 as (_ & _ & _ & E & _). apply Forall_forall. intros [p|e'] I; [exact Logic.I|]. exact (E e' I).
Qed.

Lemma handle_connection_quiet peer resolved own central i lat sup cs s s' h o :
  handle_connection peer resolved own central i lat sup cs s = Some (s', h, o) -> Forall quiet_event o.
Proof.
  unfold handle_connection. intros H.
  destruct (Handles.get_unused_handle _ _ _ _) as [[h' last]|]; [|discriminate]. injection H as _ _ <-. outs; reflexivity.
Qed.
Lemma sets_connect_quiet m : forall i adv x y z s s' o, sets_connect_request aes m i adv x y z s = Next s' o -> Forall quiet_event o.
Proof.
  induction m as [|[h a] m IH]; cbn [sets_connect_request]; intros i adv x y z s s' o H; [injection H as <- <-; constructor|].
  destruct (set_connect_request aes h a i adv x y z s) as [e|e] eqn:E; [|exact (IH _ _ _ _ _ _ _ _ H)].
  subst e. unfold set_connect_request in E. destruct (negb _) in E; [discriminate|].
  destruct (resolve aes i s) as [s1 r] eqn:R. destruct (negb _) in E; [discriminate|]. injection E as E.
  destruct (handle_connection _ _ _ _ _ _ _ _ _) as [[[s2 c] o2]|] eqn:HC; [|discriminate].
  apply handle_connection_quiet in HC. injection E as <- <-. apply Forall_app. split; [exact HC|]. outs; try reflexivity; exact I.
Qed.

Lemma connect_to_quiet adv tgt d s s' o : connect_to aes rng adv tgt d s = Some (s', o) -> forall e, ~ In (Notified e) o.
Proof.
  unfold connect_to. intros H e I.
  destruct (resolve aes adv s) as [s1 r]. do 3 (destruct (_ : bool) in H at 1; [injection H as <- <-; destruct I|]).
  destruct (generate _ _ _ _ _) as [s2 r2]. destruct (initiating_address _ _); [|discriminate].
  injection H as <- <-. destruct I as [I|[]]. discriminate I.
Qed.
Lemma connect_legacy_quiet adv tgt t s s' o : connect_legacy_pdu aes rng adv tgt t s = Some (s', o) -> forall e, ~ In (Notified e) o.
Proof.
  unfold connect_legacy_pdu. intros H. do 2 (destruct (_ : bool) in H at 1; [injection H as <- <-; intros e []|]).
  exact (connect_to_quiet _ _ _ _ _ _ H).
Qed.
Lemma connect_extended_quiet adv tgt c d s s' o : connect_extended_pdu aes rng adv tgt c d s = Some (s', o) -> forall e, ~ In (Notified e) o.
Proof.
  unfold connect_extended_pdu. intros H. do 3 (destruct (_ : bool) in H at 1; [injection H as <- <-; intros e []|]).
  exact (connect_to_quiet _ _ _ _ _ _ H).
Qed.

(** A pending scan request concerns a device that passes the filter *)
Definition pending_ok (s : le) : Prop :=
  scan_enabled (scan s) = true -> forall p, In p (scan_pending (scan s)) -> passes s (who (resolving_on s) (resolving s) (fst p)).

Lemma report_origin now s o s' st out e a : step now s o = Ok s' st out -> In (Notified e) out -> reported e = Some a ->
  exists p adv, o = Receive p /\ advertiser_of p = Some adv /\ a = who (resolving_on s) (resolving s) adv
    /\ (passes s a \/ scan_enabled (scan s) = true /\ exists r, In (adv, r) (scan_pending (scan s))).
Proof.
  intros S I R. destruct o as [c|p|].
  - apply (command_reports _ _ _ _ _ _ _ S) in I. congruence.
  - cbn [LeHost.step] in S.
    destruct p; cbn [receive] in S.
    + unfold of_effect, receive_legacy_pdu in S. destruct (then_also _ _) as [s1 o1| |] eqn:E; try discriminate. ok S.
      apply then_also_inv in E as (s2 & o2 & o3 & E1 & E2 & ->). apply in_app_iff in I as [I|I]; [|now elim (connect_legacy_quiet _ _ _ _ _ _ E2 e)].
      destruct (scan_legacy_says _ _ _ _ _ _ _ _ _ _ E1) as [F _]. rewrite Forall_forall in F. apply F in I as [P Q]. cbn [scan_says] in Q.
      assert (a = who (resolving_on s) (resolving s) adv) by congruence. subst a. eexists _, adv. split; [reflexivity|]. split; [reflexivity|]. auto.
    + unfold of_effect, receive_extended_pdu in S. destruct (then_also _ _) as [s1 o1| |] eqn:E; try discriminate. ok S.
      apply then_also_inv in E as (s2 & o2 & o3 & E1 & E2 & ->). apply in_app_iff in I as [I|I]; [|now elim (connect_extended_quiet _ _ _ _ _ _ _ E2 e)].
      destruct (scan_extended_says _ _ _ _ _ _ _ _ _ _ _ _ _ _ _ _ _ _ E1) as [F _]. rewrite Forall_forall in F. apply F in I as [P Q]. cbn [scan_says] in Q.
      assert (a = who (resolving_on s) (resolving s) adv) by congruence. subst a. eexists _, adv. split; [reflexivity|]. split; [reflexivity|]. auto.
    + exfalso. unfold of_pair, receive_periodic in S.
      destruct (negb _) in S; [ok S; destruct I|]. destruct (negb _) in S; [ok S; destruct I|].
      destruct (resolve aes adv s) as [s1 r].
      match type of S with context [match ?m with Some _ => _ | None => _ end] => destruct m in S end.
      * ok S. destruct (le_event_unmasked _ _) in I; [|destruct I]. destruct I as [I|[]]. injection I as <-. discriminate R.
      * ok S. destruct (le_event_unmasked _ _) in I; [|destruct I]. apply in_flat_map in I as (kv & _ & I).
        destruct (synced_match _ _ _ _); [|contradiction]. apply in_map_iff in I as (f & I & _). injection I as <-. discriminate R.
    + exfalso. unfold of_pair, receive_scan in S. destruct (resolve aes scanner s) as [s1 r]. ok S. apply in_app_iff in I as [I|I].
      * unfold legacy_scan_request in I. destruct (_ && _) in I; [|destruct I]. destruct I as [I|[]]. discriminate I.
      * apply in_flat_map in I as (kv & _ & I). unfold set_scan_request_pdu in I. destruct (_ && _ && _) in I; [|contradiction]. destruct I as [I|[]]. discriminate I.
    + unfold of_pair in S. destruct (receive_scan_response _ _ _ _ _) as [s1 o1] eqn:E. ok S.
      destruct (scan_response_says _ _ _ _ _ _ _ E) as [_ F]. destruct (F _ I) as (EN & P & e' & E' & Q). injection E' as <-.
      assert (a = who (resolving_on s) (resolving s) adv) by congruence. subst a. eexists _, adv. split; [reflexivity|]. split; [reflexivity|]. auto.
    + exfalso. unfold of_effect, receive_connect in S. apply quiet_in in I; [congruence|].
      destruct (legacy_connect_request aes initiator adv interval latency supervision s) as [x|x] eqn:E.
      * unfold legacy_connect_request in E. destruct (negb _) in E; [discriminate|].
        destruct (resolve aes initiator s) as [s1 r]. destruct (negb _) in E; [discriminate|]. injection E as <-.
        destruct (handle_connection _ _ _ _ _ _ _ _ _) as [[[s2 c] o2]|] eqn:HC; [|discriminate]. ok S.
        apply Forall_app. split; [exact (handle_connection_quiet _ _ _ _ _ _ _ _ _ _ _ _ HC)|]. outs. exact Logic.I.
      * destruct (sets_connect_request aes (sets x) _ _ _ _ _ x) as [s1 o1| |] eqn:E1; try discriminate. ok S. exact (sets_connect_quiet _ _ _ _ _ _ _ _ _ E1).
    + exfalso. unfold of_effect, receive_connect_complete in S. apply quiet_in in I; [congruence|]. destruct (_ && _) in S; [ok S; constructor|].
      destruct (if is_rpa adv then _ else _) as [s1 r].
      destruct (handle_connection _ _ _ _ _ _ _ _ _) as [[[s2 c] o2]|] eqn:HC; [|discriminate]. ok S. exact (handle_connection_quiet _ _ _ _ _ _ _ _ _ _ _ _ HC).
    + exfalso. unfold of_pair, receive_disconnect in S. destruct (find_connection _ _ _); ok S; [|destruct I].
      unfold disconnection_event in I. destruct (event_unmasked _ _) in I; [|destruct I]. destruct I as [I|[]]. injection I as <-. discriminate R.
  - apply (tick_reports _ _ _ _ _ _ S) in I. congruence.
Qed.
End WithController.
