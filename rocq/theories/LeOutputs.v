(** What each step of the LE controller can send and notify. *)
From Verif Require Import Prelude Address Rpa Table LeTypes LeAdvertise LeLists LeScan LeInitiate LeHost LeTac LeFrame LeStep LeSets.
Open Scope N_scope.

(** Is the event allowed by the masks? [None]: not an LE meta event *)
Definition subevent (e : event) : option N :=
  match e with
  | EvConnectionComplete _ _ _ _ _ _ _ => Some 1
  | EvReport _ _ _ => Some 2
  | EvEnhancedConnectionComplete _ _ _ _ _ _ _ _ _ => Some 10
  | EvDirectedReport _ _ => Some 11
  | EvExtendedReport _ _ _ _ _ _ _ _ _ => Some 13
  | EvSyncEstablished _ _ _ _ _ => Some 14
  | EvPeriodicReport _ _ _ => Some 15
  | EvScanTimeout => Some 17
  | EvSetTerminated _ _ _ _ => Some 18
  | EvScanRequestReceived _ _ => Some 19
  | EvChannelSelection _ => Some 20
  | EvDisconnection _ _ => None
  end.

Definition unmasked (s : le) (e : event) : Prop :=
  match subevent e with
  | Some c => le_event_unmasked s c = true
  | None => event_unmasked s 5 = true
  end.

(** Which packets can follow from which step *)
Definition may_send (o : op) (p : air) : bool :=
  match o, p with
  | Tick, (AirLegacy _ _ _ _ | AirExtended _ _ _ _ _ _ _ _ _ _ _ | AirPeriodic _ _ _ _ _) => true
  | Receive (AirLegacy _ _ _ _ | AirExtended _ _ _ _ _ _ _ _ _ _ _), (AirScan _ _ | AirConnect _ _ _ _ _) => true
  | Receive (AirScan _ _), AirScanResponse _ _ _ => true
  | Receive (AirConnect _ _ _ _ _), AirConnectComplete _ _ _ _ _ => true
  | Command (Disconnect _ _ _ | Reset), AirDisconnect _ _ _ => true
  | _, _ => false
  end.

Definition fine (s : le) (o : op) (x : output) : Prop :=
  match x with Notified e => unmasked s e | Sent p => may_send o p = true end.

Ltac outs := repeat first
  [ apply Forall_app; split
  | apply Forall_nil
  | apply Forall_cons
  | match goal with |- Forall _ (if ?b then _ else _) => destruct b eqn:? end ].

Ltac masks := unfold fine, unmasked; cbn [subevent may_send]; repeat match goal with X : _ && _ = true |- _ => apply andb_true_iff in X as [X ?] end;
  first [reflexivity | assumption].

Lemma forall_if : forall (A : Type) (P : A -> Prop) (b : bool) l, (b = true -> Forall P l) -> Forall P (if b then l else []).
Proof. intros A P [] l H; auto. Qed.

Section WithController.
Variable aes : list N -> list N -> list N.
Variable rng : N -> N.
Variable cfg : config.
Notation step := (step aes rng cfg).

Definition same_masks (s s' : le) : Prop :=
  event_mask s' = event_mask s /\ event_mask_2 s' = event_mask_2 s /\ le_mask s' = le_mask s.

Lemma le_event_masks : forall s s' c, same_masks s s' -> le_event_unmasked s' c = le_event_unmasked s c.
Proof. intros s s' c (E1 & E2 & E3). unfold le_event_unmasked, event_unmasked. now rewrite E1, E2, E3. Qed.

Lemma fine_masks : forall s s' o x, same_masks s s' -> fine s' o x -> fine s o x.
Proof.
  intros s s' o x M. destruct x as [p|e]; cbn [fine]; [auto|]. unfold unmasked. destruct (subevent e).
  - now rewrite (le_event_masks _ _ _ M).
  - destruct M as (E1 & E2 & E3). unfold event_unmasked. now rewrite E1, E2.
Qed.

Lemma fine_all_masks : forall s s' o l, same_masks s s' -> Forall (fine s' o) l -> Forall (fine s o) l.
Proof. intros s s' o l M. apply Forall_impl. intros x. exact (fine_masks s s' o x M). Qed.

Lemma same_masks_refl : forall s, same_masks s s.
Proof. repeat split. Qed.
Lemma scan_touched_masks : forall s s', scan_touched s s' -> same_masks s s'.
Proof. intros s s' (pd & h & l & p & -> & _). repeat split. Qed.
Lemma init_touched_masks : forall s s', init_touched s s' -> same_masks s s'.
Proof. intros s s' (pd & h & l & p & -> & _). repeat split. Qed.

Lemma handle_connection_fine : forall op peer resolved own central i lat sup cs s s' h o,
  handle_connection peer resolved own central i lat sup cs s = Some (s', h, o) -> Forall (fine s op) o.
Proof.
  unfold handle_connection. intros op peer resolved own central i lat sup cs s s' h o H.
  destruct (Handles.get_unused_handle _ _ _ _) as [[h' last]|]; [|discriminate]. injection H as _ _ <-.
  outs; masks.
Qed.

Lemma send_scan_fine : forall op now adv res b1 b2 b3 b4 x y s s' o,
  send_scan_request aes rng now adv res b1 b2 b3 b4 x y s = Some (s', o) -> (forall a b, may_send op (AirScan a b) = true) -> Forall (fine s op) o.
Proof.
  unfold send_scan_request. intros op now adv res b1 b2 b3 b4 x y s s' o H M. destruct (_ || _) in H.
  - injection H as <- <-. constructor.
  - destruct (generate _ _ _ _ _) as [s1 r]. destruct (scanning_address _ _); [|discriminate]. injection H as <- <-.
    outs. apply M.
Qed.

Lemma scan_legacy_fine : forall op now adv tgt t d s s' o,
  scan_legacy_pdu aes rng now adv tgt t d s = Some (s', o) -> (forall a b, may_send op (AirScan a b) = true) -> Forall (fine s op) o.
Proof.
  unfold scan_legacy_pdu. intros op now adv tgt t d s s' o H M.
  destruct (negb _) in H; [injection H as <- <-; constructor|].
  destruct (resolve aes adv s) as [s1 r] eqn:R. apply resolve_touched in R.
  destruct (negb _) in H; [injection H as <- <-; constructor|].
  destruct (if match t with PDU_DIRECT => true | _ => false end then _ else _); [|injection H as <- <-; constructor].
  destruct (filter_duplicate _ _) as [s2 f] eqn:F. apply filter_duplicate_touched in F.
  destruct (send_scan_request _ _ _ _ _ _ _ _ _ _ _ _) as [[s3 o3]|] eqn:S; [|discriminate].
  injection H as <- <-. assert (same_masks s s2) as SM by (apply scan_touched_masks; exact (scan_touched_trans _ _ _ R F)).
  apply (fine_all_masks s s2 op _ SM). apply (send_scan_fine op) in S; [|exact M].
  outs; try exact S; masks.
Qed.

Lemma scan_extended_fine : forall op now adv tgt c sc dir sid pw pr se pi d s s' o,
  scan_extended_pdu aes rng cfg now adv tgt c sc dir sid pw pr se pi d s = Some (s', o) ->
  (forall a b, may_send op (AirScan a b) = true) -> Forall (fine s op) o.
Proof.
  unfold scan_extended_pdu. intros op now adv tgt c sc dir sid pw pr se pi d s s' o H M.
  do 4 (destruct (_ : bool) in H at 1; [injection H as <- <-; constructor|]).
  destruct (resolve aes adv s) as [s1 r] eqn:R. apply resolve_touched in R.
  destruct (negb _) in H; [injection H as <- <-; constructor|].
  destruct (if dir then _ else _); [|injection H as <- <-; constructor].
  destruct (filter_duplicate _ _) as [s2 f] eqn:F. apply filter_duplicate_touched in F.
  destruct (send_scan_request _ _ _ _ _ _ _ _ _ _ _ _) as [[s3 o3]|] eqn:S; [|discriminate].
  injection H as <- <-. assert (same_masks s s2) as SM by (apply scan_touched_masks; exact (scan_touched_trans _ _ _ R F)).
  apply (fine_all_masks s s2 op _ SM). apply (send_scan_fine op) in S; [|exact M].
  apply Forall_app; split; [|exact S]. apply forall_if. intros B.
  apply Forall_forall. intros x IN. apply in_map_iff in IN as (f' & <- & _). masks.
Qed.

Lemma connect_to_fine : forall op adv tgt d s s' o, connect_to aes rng adv tgt d s = Some (s', o) ->
  (forall a b x y z, may_send op (AirConnect a b x y z) = true) -> Forall (fine s op) o.
Proof.
  unfold connect_to. intros op adv tgt d s s' o H M.
  destruct (resolve aes adv s) as [s1 r]. do 3 (destruct (_ : bool) in H at 1; [injection H as <- <-; constructor|]).
  destruct (generate _ _ _ _ _) as [s2 r2]. destruct (initiating_address _ _); [|discriminate].
  injection H as <- <-. outs. apply M.
Qed.

Lemma set_timeout_fine : forall s now a a' o, set_timeout s now a = (a', o) -> Forall (fine s Tick) o.
Proof.
  unfold set_timeout. intros s now a a' o H. destruct (timeout a); [|injection H as <- <-; constructor].
  destruct (_ && _) in H; injection H as <- <-; outs; masks.
Qed.

Lemma set_limit_fine : forall s a a' o, set_limit s a = (a', o) -> Forall (fine s Tick) o.
Proof. unfold set_limit. intros s a a' o H. destruct (_ && _ && _) in H; injection H as <- <-; outs; masks. Qed.

Lemma advertise_set_fine : forall s now a a' o, advertise_set s now a = Some (a', o) -> Forall (fine s Tick) o.
Proof.
  unfold advertise_set. intros s now a a' o H.
  destruct (set_timeout s now a) as [a1 o1] eqn:E1. apply set_timeout_fine in E1.
  destruct (set_limit s a1) as [a2 o2] eqn:E2. apply set_limit_fine in E2.
  destruct (set_advertise now a2) as [[a3 o3]|] eqn:E3; [|discriminate].
  destruct (set_periodic now a3) as [a4 o4] eqn:E4. injection H as <- <-. 
  apply Forall_app; split; [exact E1|]. apply Forall_app; split; [exact E2|]. apply Forall_app; split.
  - unfold set_advertise in E3. destruct (_ && _) in E3; [|injection E3 as <- <-; constructor].
    destruct (legacy_pdus _); [destruct (set_legacy_pdu _); [|discriminate]|]; injection E3 as <- <-; outs; masks.
  - unfold set_periodic in E4. destruct (_ && _) in E4; injection E4 as <- <-; outs; masks.
Qed.

Lemma advertise_sets_fine : forall s now m m' o, advertise_sets s now m = Some (m', o) -> Forall (fine s Tick) o.
Proof.
  intros s now. induction m as [|[k a] m IH]; cbn [advertise_sets]; intros m' o H.
  - injection H as <- <-. constructor.
  - destruct (advertise_set s now a) as [[a1 o1]|] eqn:E; [|discriminate].
    destruct (advertise_sets s now m) as [[m1 o2]|] eqn:E2; [|discriminate]. injection H as <- <-.
    apply Forall_app. split; [exact (advertise_set_fine _ _ _ _ _ E)|exact (IH _ _ eq_refl)].
Qed.

Lemma tick_fine : forall now s s' st out, step now s Tick = Ok s' st out -> Forall (fine s Tick) out.
Proof.
  intros now s s' st out H. cbn [LeHost.step] in H. unfold tick, le_advertising in H.
  destruct (legacy_timeout now s) as [s1 o1] eqn:E1.
  destruct (legacy_advertise now s1) as [s2 o2] eqn:E2.
  destruct (advertise_sets s2 now (sets s2)) as [[m o3]|] eqn:E3; [|discriminate].
  destruct (le_scanning now _) as [s4 o4] eqn:E4. injection H as <- <- <-.
  assert (Forall (fine s Tick) o1 /\ same_masks s s1) as [F1 M1].
  { unfold legacy_timeout in E1. destruct (l_timeout _); [destruct (_ && _) in E1|]; injection E1 as <- <-; split; outs; try masks; repeat split. }
  assert (Forall (fine s1 Tick) o2 /\ same_masks s1 s2) as [F2 M2].
  { unfold legacy_advertise in E2. destruct (_ && _) in E2; [destruct (legacy_pdu_of _)|]; injection E2 as <- <-; split; outs; try masks; repeat split. }
  apply advertise_sets_fine in E3.
  assert (same_masks s s2) as M by (destruct M1 as (A1 & A2 & A3), M2 as (B1 & B2 & B3); repeat split; congruence).
  apply Forall_app; split; [apply Forall_app; split; [exact F1|apply Forall_app; split]|].
  - exact (fine_all_masks _ _ _ _ M1 F2).
  - exact (fine_all_masks _ _ _ _ M E3).
  - unfold le_scanning in E4. destruct (negb _) in E4; [injection E4 as <- <-; constructor|].
    apply (fine_all_masks s (with_sets m s2)); [exact M|].
    destruct (_ && _) in E4; injection E4 as <- <-; outs; masks.
Qed.

Lemma sets_connect_fine : forall op m i adv x y z s s' o, sets_connect_request aes m i adv x y z s = Next s' o ->
  (forall i adv x y z, may_send op (AirConnectComplete i adv x y z) = true) -> Forall (fine s op) o.
Proof.
  intros op. induction m as [|[h a] m IH]; cbn [sets_connect_request]; intros i adv x y z s s' o H M.
  - injection H as <- <-. constructor.
  - destruct (set_connect_request aes h a i adv x y z s) as [e|e] eqn:E.
    + subst e. unfold set_connect_request in E. destruct (negb _) in E; [discriminate|].
      destruct (resolve aes i s) as [s1 r] eqn:R. destruct (resolve_frame _ _ _ _ _ R) as (l & -> & _).
      destruct (negb _) in E; [discriminate|]. injection E as E.
      destruct (handle_connection _ _ _ _ _ _ _ _ _) as [[[s2 c] o2]|] eqn:HC; [|discriminate].
      destruct (handle_connection_frame _ _ _ _ _ _ _ _ _ _ _ _ HC) as (last & ia & -> & _ & _).
      apply (handle_connection_fine op) in HC. injection E as <- <-.
      apply Forall_app. split; [apply (fine_all_masks s) in HC; [exact HC|repeat split]|].
      outs; [apply M|]. masks.
    + destruct (set_connect_request_frame _ _ _ _ _ _ _ _ _ _ E) as (l & -> & _).
      apply (fine_all_masks s (with_resolving l s)); [repeat split|]. exact (IH _ _ _ _ _ _ _ _ H M).
Qed.

Lemma receive_fine : forall now s p s' st out, step now s (Receive p) = Ok s' st out -> Forall (fine s (Receive p)) out.
Proof.
  intros now s p s' st out H. cbn [LeHost.step] in H. destruct p; cbn [receive] in H.
  - unfold of_effect, receive_legacy_pdu in H. destruct (then_also _ _) as [s1 o1| |] eqn:E; try discriminate. ok H.
    apply then_also_inv in E as (s2 & o2 & o3 & E1 & E2 & ->).
    pose proof (scan_touched_masks _ _ (scan_legacy_touched _ _ _ _ _ _ _ _ _ _ E1)) as M.
    apply Forall_app; split; [apply (scan_legacy_fine (Receive (AirLegacy adv tgt t data)) _ _ _ _ _ _ _ _ E1); reflexivity|].
    apply (fine_all_masks s s2); [exact M|]. unfold connect_legacy_pdu in E2.
    do 2 (destruct (_ : bool) in E2 at 1; [injection E2 as <- <-; constructor|]).
    eapply connect_to_fine; [exact E2|reflexivity].
  - unfold of_effect, receive_extended_pdu in H. destruct (then_also _ _) as [s1 o1| |] eqn:E; try discriminate. ok H.
    apply then_also_inv in E as (s2 & o2 & o3 & E1 & E2 & ->).
    pose proof (scan_touched_masks _ _ (scan_extended_touched _ _ _ _ _ _ _ _ _ _ _ _ _ _ _ _ _ _ E1)) as M.
    apply Forall_app; split; [eapply scan_extended_fine; [exact E1|reflexivity]|].
    apply (fine_all_masks s s2); [exact M|]. unfold connect_extended_pdu in E2.
    do 3 (destruct (_ : bool) in E2 at 1; [injection E2 as <- <-; constructor|]).
    eapply connect_to_fine; [exact E2|reflexivity].
  - unfold of_pair, receive_periodic in H.
    destruct (negb _) in H; [ok H; constructor|]. destruct (negb _) in H; [ok H; constructor|].
    destruct (resolve aes adv s) as [s1 r] eqn:R. destruct (resolve_frame _ _ _ _ _ R) as (l & -> & _).
    apply (fine_all_masks s (with_resolving l s)); [repeat split|].
    match type of H with context [match ?m with Some _ => _ | None => _ end] => destruct m in H end.
    + ok H. outs; masks.
    + ok H. apply forall_if. intros B. apply Forall_forall. intros x IN. apply in_flat_map in IN as (kv & _ & IN).
      destruct (synced_match _ _ _ _); [|contradiction]. apply in_map_iff in IN as (f & <- & _). masks.
  - unfold of_pair, receive_scan in H. destruct (resolve aes scanner s) as [s1 r]. ok H.
    apply Forall_app; split.
    + unfold legacy_scan_request. outs; masks.
    + apply Forall_forall. intros x IN. apply in_flat_map in IN as (kv & _ & IN).
      unfold set_scan_request_pdu in IN. destruct (_ && _ && _) in IN; [|contradiction]. destruct IN as [<-|[]]. masks.
  - unfold of_pair, receive_scan_response in H. destruct (negb _) in H; [ok H; constructor|].
    destruct (pending_find _ _) as [q|]; [|ok H; constructor].
    destruct (resolve aes adv s) as [s1 r] eqn:R. apply resolve_touched in R. apply scan_touched_masks in R.
    destruct (filter_duplicate _ _) as [s2 f] eqn:F. apply filter_duplicate_touched in F. apply scan_touched_masks in F.
    ok H. apply (fine_all_masks s s2); [destruct R as (A1 & A2 & A3), F as (B1 & B2 & B3); le_simpl_all; repeat split; congruence|].
    apply Forall_app; split; apply forall_if; intros B; [outs; masks|].
    apply Forall_forall. intros x IN. apply in_map_iff in IN as (f' & <- & _). masks.
  - unfold of_effect, receive_connect in H.
    destruct (legacy_connect_request aes initiator adv interval latency supervision s) as [e|e] eqn:E.
    + unfold legacy_connect_request in E. destruct (negb _) in E; [discriminate|].
      destruct (resolve aes initiator s) as [s1 r] eqn:R. destruct (resolve_frame _ _ _ _ _ R) as (l & -> & _).
      destruct (negb _) in E; [discriminate|]. injection E as <-.
      destruct (handle_connection _ _ _ _ _ _ _ _ _) as [[[s2 c] o2]|] eqn:HC; [|discriminate].
      eapply (handle_connection_fine (Receive (AirConnect initiator adv interval latency supervision))) in HC. ok H.
      apply Forall_app. split; [apply (fine_all_masks s) in HC; [exact HC|repeat split]|]. outs. reflexivity.
    + destruct (sets_connect_request aes (sets e) _ _ _ _ _ e) as [s1 o1| |] eqn:E1; try discriminate. ok H.
      apply (fine_all_masks s e); [|eapply sets_connect_fine; [exact E1|reflexivity]].
      unfold legacy_connect_request in E. destruct (negb _) in E; [injection E as <-; repeat split|].
      destruct (resolve aes initiator s) as [s2 r] eqn:R. destruct (resolve_frame _ _ _ _ _ R) as (l & -> & _).
      destruct (negb _) in E; [|discriminate]. injection E as <-. repeat split.
  - unfold of_effect, receive_connect_complete in H. destruct (_ && _) in H; [ok H; constructor|].
    destruct (if is_rpa adv then _ else _) as [s1 r] eqn:R.
    assert (same_masks s s1) as M.
    { destruct (is_rpa adv); [destruct (resolve_private_address _ _ _ _)|]; injection R as <- <-; repeat split. }
    destruct (handle_connection _ _ _ _ _ _ _ _ _) as [[[s2 c] o2]|] eqn:HC; [|discriminate]. ok H.
    apply (fine_all_masks s s1 _ _ M). eapply handle_connection_fine. exact HC.
  - unfold of_pair, receive_disconnect in H. destruct (find_connection _ _ _); ok H; [|constructor].
    unfold disconnection_event. outs; masks.
Qed.

Lemma command_fine : forall now s c s' st out, step now s (Command c) = Ok s' st out -> Forall (fine s (Command c)) out.
Proof.
  intros now s c s' st out H. cbn [LeHost.step] in H.
  assert (out = [] -> Forall (fine s (Command c)) out) as NIL by (intros ->; constructor).
  destruct c; cbn [run_command] in H; unfold quiet in H;
    try (ok H; apply NIL; reflexivity); try (match type of H with (let '(_, _) := ?r in _) = _ => destruct r end; ok H; apply NIL; reflexivity).
  - unfold reset, loud in H. ok H. apply Forall_forall. intros x IN. apply in_map_iff in IN as (kv & <- & _). reflexivity.
  - destruct (set_ext_enable _ _ _ _ _ _); [|discriminate]. ok H. constructor.
  - unfold cancel_sync, loud in H. destruct (is_some _); ok H; outs; masks.
  - unfold cancel_connection, loud in H. destruct (negb _); ok H; outs; masks.
  - unfold disconnect, loud in H. destruct (lookup _ _); ok H; [|constructor]. unfold disconnection_event. outs; masks.
Qed.

Theorem step_fine : forall now s o s' st out, step now s o = Ok s' st out -> Forall (fine s o) out.
Proof.
  intros now s [c|p|] s' st out H; [exact (command_fine _ _ _ _ _ _ H)|exact (receive_fine _ _ _ _ _ _ H)|exact (tick_fine _ _ _ _ _ H)].
Qed.

End WithController.
