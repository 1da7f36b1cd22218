(** Which component each step can change: one lemma per component of the state. *)
From Verif Require Import Prelude Address Rpa Table LeTypes LeAdvertise LeLists LeScan LeInitiate LeHost LeTac LeFrame.
Open Scope N_scope.

Ltac crack H :=
  repeat match type of H with
  | context [match ?x with _ => _ end] =>
      match x with
      | context [match _ with _ => _ end] => fail 1
      | _ => let E := fresh "E" in destruct x eqn:E
      end
  end.

Ltac frames :=
  repeat match goal with
  | E : generate _ _ _ _ _ = (_, _) |- _ => apply generate_frame in E; destruct E as (? & ? & -> & ?)
  | E : resolve _ _ _ = (_, _) |- _ => apply resolve_frame in E; destruct E as (? & -> & ?)
  | E : resolve_private_address _ _ _ _ = (_, _) |- _ => apply resolve_private_ident in E
  | E : set_ext_enable _ _ _ _ _ _ = Done _ _ |- _ =>
      apply set_ext_enable_frame in E; destruct E as (? & ? & ? & ? & -> & ? & ?)
  | E : handle_connection _ _ _ _ _ _ _ _ _ = Some (_, _, _) |- _ =>
      apply handle_connection_frame in E; destruct E as (? & ? & -> & ? & ?)
  | E : sets_connect_request _ _ _ _ _ _ _ _ = Next _ _ |- _ =>
      apply sets_connect_request_frame in E;
      destruct E as [(? & -> & ? & ->)|(? & ? & ? & ? & ? & ? & -> & ? & ? & ?)]
  | E : scan_legacy_pdu _ _ _ _ _ _ _ _ = Some (_, _) |- _ =>
      apply scan_legacy_touched in E; destruct E as (? & ? & ? & ? & -> & ?)
  | E : scan_extended_pdu _ _ _ _ _ _ _ _ _ _ _ _ _ _ _ _ = Some (_, _) |- _ =>
      apply scan_extended_touched in E; destruct E as (? & ? & ? & ? & -> & ?)
  | E : receive_scan_response _ _ _ _ _ = (_, _) |- _ =>
      apply scan_response_touched in E; destruct E as (? & ? & ? & ? & -> & ?)
  | E : connect_legacy_pdu _ _ _ _ _ _ = Some (_, _) |- _ =>
      apply connect_legacy_touched in E; destruct E as (? & ? & ? & ? & -> & ?)
  | E : connect_extended_pdu _ _ _ _ _ _ _ = Some (_, _) |- _ =>
      apply connect_extended_touched in E; destruct E as (? & ? & ? & ? & -> & ?)
  end.

Ltac unfold_step H :=
  unfold step, run_command, receive, tick, quiet, loud, of_effect, of_pair, then_also,
    reset, set_random_address, set_adv_parameters, set_adv_data, set_scan_response_data, set_adv_enable,
    set_set_random_address, set_ext_parameters, set_ext_data, set_ext_scan_response, remove_set, clear_sets,
    set_periodic_parameters, set_periodic_data, set_periodic_enable,
    clear_accept_list, add_accept_list, remove_accept_list,
    add_resolving_list, remove_resolving_list, clear_resolving_list, set_address_resolution, set_privacy_mode,
    add_padv, remove_padv, clear_padv, create_sync, cancel_sync, terminate_sync,
    set_scan_parameters, set_scan_enable, set_ext_scan_parameters, set_ext_scan_enable,
    create_connection, cancel_connection, ext_create_connection, check_own, disconnect,
    receive_legacy_pdu, receive_extended_pdu, receive_periodic, receive_scan, receive_connect,
    legacy_connect_request, receive_connect_complete, receive_disconnect,
    le_advertising, legacy_timeout, legacy_advertise, le_scanning, scan_off, scan_on,
    select_legacy, select_extended in H.

Ltac ok H := first [discriminate H | injection H as <- <- <-].

Section WithController.
Variable aes : list N -> list N -> list N.
Variable rng : N -> N.
Variable cfg : config.
Notation step := (step aes rng cfg).

Definition is_reset (o : op) : bool := match o with Command Reset => true | _ => false end.


(** The parts of the state a step may change *)
Inductive part :=
| PRandom | PFlags | PLegacy | PSets | PAccept | PResolving | PResolvingOn | PPadv | PScan | PInit
| PSyncing | PSynced | PConns | PMasks.

Definition same (p : part) (s s' : le) : Prop :=
  match p with
  | PRandom => random_address s' = random_address s
  | PFlags => legacy_used s' = legacy_used s /\ extended_used s' = extended_used s
  | PLegacy => legacy s' = legacy s
  | PSets => sets s' = sets s
  | PAccept => accept s' = accept s
  | PResolving => map ident (resolving s') = map ident (resolving s)
  | PResolvingOn => resolving_on s' = resolving_on s
  | PPadv => padv s' = padv s
  | PScan => scan s' = scan s
  | PInit => init s' = init s
  | PSyncing => syncing s' = syncing s
  | PSynced => synced s' = synced s
  | PConns => conns s' = conns s /\ last_handle s' = last_handle s
  | PMasks => event_mask s' = event_mask s /\ event_mask_2 s' = event_mask_2 s /\ le_mask s' = le_mask s
  end.

Definition touches (o : op) (p : part) : bool :=
  match o, p with
  | Command Reset, _ => true
  | Command (SetEventMask _ | SetEventMaskPage2 _ | LeSetEventMask _), PMasks => true
  | Command (SetRandomAddress _), PRandom => true
  | Command (SetAdvParameters _ _ _ _ _ _ _ _ | SetAdvData _ | SetScanResponseData _ | SetAdvEnable _),
    (PLegacy | PFlags) => true
  | Command (SetExtParameters _ _ | SetExtData _ _ _ | SetExtScanResponse _ _ _ | SetExtEnable _ _),
    (PSets | PFlags) => true
  | Command (SetSetRandomAddress _ _ | RemoveSet _ | ClearSets | SetPeriodicParameters _ _ _
             | SetPeriodicData _ _ _ | SetPeriodicEnable _ _ _), PSets => true
  | Command (ClearAcceptList | AddAcceptList _ _ | RemoveAcceptList _ _), PAccept => true
  | Command (AddResolvingList _ _ _ _ | RemoveResolvingList _ _ | ClearResolvingList), PResolving => true
  | Command (SetAddressResolution _), PResolvingOn => true
  | Command (AddPadv _ _ _ | RemovePadv _ _ _ | ClearPadv), PPadv => true
  | Command (CreateSync _ _ _ _ _ _ _ _ | CancelSync), PSyncing => true
  | Command (TerminateSync _), PSynced => true
  | Command (SetScanParameters _ _ _ _ _ | SetScanEnable _ _ | SetExtScanParameters _ _ _ _
             | SetExtScanEnable _ _ _ _), (PScan | PFlags) => true
  | Command (CreateConnection _ _ _ _ | ExtCreateConnection _ _ _ _ _), (PInit | PFlags) => true
  | Command CancelConnection, PInit => true
  | Command (Disconnect _ _ _), PConns => true
  | Receive (AirLegacy _ _ _ _ | AirExtended _ _ _ _ _ _ _ _ _ _ _), (PScan | PInit) => true
  | Receive (AirPeriodic _ _ _ _ _), (PSyncing | PSynced) => true
  | Receive (AirScanResponse _ _ _), PScan => true
  | Receive (AirConnect _ _ _ _ _), (PLegacy | PSets | PConns | PInit) => true
  | Receive (AirConnectComplete _ _ _ _ _), (PInit | PConns) => true
  | Receive (AirDisconnect _ _ _), PConns => true
  | Tick, (PLegacy | PSets | PScan) => true
  | _, _ => false
  end.

Lemma le_scanning_frame : forall now s s' o, le_scanning now s = (s', o) -> exists sc, s' = with_scan sc s.
Proof.
  unfold le_scanning. intros now s s' o H. destruct (negb _) in H.
  - injection H as <- <-. exists (scan s). destruct s; reflexivity.
  - destruct (_ && _) in H; injection H as <- <-; eexists; reflexivity.
Qed.

Lemma tick_frame : forall now s s' st o, tick now s = Ok s' st o ->
  exists a m sc, s' = with_scan sc (with_sets m (with_legacy a s)).
Proof.
  unfold tick, le_advertising. intros now s s' st o H.
  assert (forall s1 o1, legacy_timeout now s = (s1, o1) -> exists a, s1 = with_legacy a s) as T.
  { unfold legacy_timeout. intros s1 o1 E. destruct (l_timeout _); [destruct (_ && _)|]; injection E as <- <-;
      (eexists; reflexivity) || (exists (legacy s); destruct s; reflexivity). }
  destruct (legacy_timeout now s) as [s1 o1]. destruct (T _ _ eq_refl) as [a ->].
  assert (forall s2 o2, legacy_advertise now (with_legacy a s) = (s2, o2) -> exists a, s2 = with_legacy a s) as A.
  { unfold legacy_advertise. intros s2 o2 E. destruct (_ && _); [destruct (legacy_pdu_of _)|]; injection E as <- <-;
      eexists; reflexivity. }
  destruct (legacy_advertise now _) as [s2 o2]. destruct (A _ _ eq_refl) as [a2 ->].
  destruct (advertise_sets _ _ _) as [[m o3]|]; [|discriminate].
  destruct (le_scanning _ _) as [s3 o4] eqn:S. destruct (le_scanning_frame _ _ _ _ S) as [sc ->].
  injection H as <- <- <-. exists a2, m, sc. reflexivity.
Qed.

Ltac leaf := intros q T; destruct q; try discriminate T; unfold same; le_simpl; le_simpl_all;
  first [reflexivity | split; reflexivity | repeat split; reflexivity | congruence].

Ltac go H :=
  unfold_step H; crack H; try discriminate;
  repeat match goal with E : Done _ _ = Done _ _ |- _ => injection E as <- <- end;
  try ok H.

Lemma command_same : forall now s c s' st out, run_command aes rng cfg now s c = Ok s' st out ->
  forall p, touches (Command c) p = false -> same p s s'.
Proof. intros now s c s' st out H. destruct c; (go H; frames; leaf). Qed.

Ltac nexts := repeat match goal with E : Next _ _ = Next _ _ |- _ => injection E as <- <- end.

Lemma then_also_inv : forall r f s' o, then_also r f = Next s' o ->
  exists s1 o1 o2, r = Some (s1, o1) /\ f s1 = Some (s', o2) /\ o = o1 ++ o2.
Proof.
  unfold then_also. intros r f s' o H. destruct r as [[s1 o1]|]; [|discriminate].
  destruct (f s1) as [[s2 o2]|] eqn:E; [|discriminate]. injection H as <- <-. eauto 6.
Qed.

Lemma receive_same : forall now s a s' st out, receive aes rng cfg now s a = Ok s' st out ->
  forall p, touches (Receive a) p = false -> same p s s'.
Proof.
  intros now s a s' st out H. destruct a.
  1-2: unfold receive, of_effect, receive_legacy_pdu, receive_extended_pdu in H;
    destruct (then_also _ _) as [s1 o1| |] eqn:E; try discriminate; injection H as <- <- <-;
    apply then_also_inv in E; destruct E as (s2 & o2 & o3 & E1 & E2 & ->); frames; leaf.
  all: go H; nexts; frames; leaf.
Qed.

Theorem step_same : forall now s o s' st out, step now s o = Ok s' st out ->
  forall p, touches o p = false -> same p s s'.
Proof.
  intros now s o s' st out H p T. destruct o as [c|a|]; cbn [LeHost.step] in H.
  - exact (command_same _ _ _ _ _ _ H p T).
  - exact (receive_same _ _ _ _ _ _ H p T).
  - apply tick_frame in H. destruct H as (a & m & sc & ->). revert p T. leaf.
Qed.

(** Induction over histories *)
Lemma run_ind : forall (P : le -> Prop),
  (forall addr, P (new_le addr)) ->
  (forall now s o s' st out, P s -> step now s o = Ok s' st out -> P s') ->
  forall s, reachable aes rng cfg s -> P s.
Proof.
  intros P P0 PS s (addr & ops & o & R). specialize (P0 addr).
  revert R P0. generalize (new_le addr). revert s o.
  induction ops as [|[now op] ops IH]; cbn [run]; intros s o s0 R I.
  - now injection R as <- <-.
  - destruct (LeHost.step aes rng cfg now s0 op) as [s1 st out| | |] eqn:E; try discriminate.
    destruct (run aes rng cfg s1 ops) as [[s2 out2]|] eqn:E2; [|discriminate].
    injection R as <- <-. exact (IH _ _ _ E2 (PS _ _ _ _ _ _ I E)).
Qed.

End WithController.
