(** Proofs for LeSyncSpec.v. *)
From Verif Require Import Prelude Address Rpa Table LeTypes LeAdvertise LeLists LeScan LeInitiate LeHost LeHistory LeTac LeFrame LeStep LeSets LeOutputs LeListsSpec LeListsProofs LeAdvertSpec LeAdvertProofs LeAdvertSends LeFilterSpec LeFilter LeLedgerSpec LeLedger LeTimeSpec LeTimeScan LeSyncSpec.
Open Scope N_scope.

(** An output that says nothing about synchronisations *)
Definition mute (x : output) : Prop :=
  match x with Notified (EvSyncEstablished _ _ _ _ _ | EvPeriodicReport _ _ _) => False | _ => True end.

Local Ltac pl := exact Logic.I.

Section WithController.
Variable aes : list N -> list N -> list N.
Variable rng : N -> N.
Variable cfg : config.
Notation step := (step aes rng cfg).
Notation history := (history aes rng cfg).

Lemma send_scan_mute : forall now adv res b1 b2 b3 b4 x y s s' o,
  send_scan_request aes rng now adv res b1 b2 b3 b4 x y s = Some (s', o) -> Forall mute o.
Proof.
  unfold send_scan_request. intros now adv res b1 b2 b3 b4 x y s s' o H. destruct (_ || _) in H.
  - injection H as <- <-. constructor.
  - destruct (generate _ _ _ _ _) as [s1 r]. destruct (scanning_address _ _); [|discriminate]. injection H as <- <-.
    outs. pl.
Qed.

Lemma scan_legacy_mute : forall now adv tgt t d s s' o,
  scan_legacy_pdu aes rng now adv tgt t d s = Some (s', o) -> Forall mute o.
Proof.
  unfold scan_legacy_pdu. intros now adv tgt t d s s' o H.
  destruct (negb _) in H; [injection H as <- <-; constructor|].
  destruct (resolve aes adv s) as [s1 r] eqn:R.
  destruct (negb _) in H; [injection H as <- <-; constructor|].
  destruct (if match t with PDU_DIRECT => true | _ => false end then _ else _); [|injection H as <- <-; constructor].
  destruct (filter_duplicate _ _) as [s2 f] eqn:F.
  destruct (send_scan_request _ _ _ _ _ _ _ _ _ _ _ _) as [[s3 o3]|] eqn:S; [|discriminate].
  injection H as <- <-. apply send_scan_mute in S. outs; try exact S; pl.
Qed.

Lemma scan_extended_mute : forall now adv tgt c sc dir sid pw pr se pi d s s' o,
  scan_extended_pdu aes rng cfg now adv tgt c sc dir sid pw pr se pi d s = Some (s', o) -> Forall mute o.
Proof.
  unfold scan_extended_pdu. intros now adv tgt c sc dir sid pw pr se pi d s s' o H.
  do 4 (destruct (_ : bool) in H at 1; [injection H as <- <-; constructor|]).
  destruct (resolve aes adv s) as [s1 r] eqn:R.
  destruct (negb _) in H; [injection H as <- <-; constructor|].
  destruct (if dir then _ else _); [|injection H as <- <-; constructor].
  destruct (filter_duplicate _ _) as [s2 f] eqn:F.
  destruct (send_scan_request _ _ _ _ _ _ _ _ _ _ _ _) as [[s3 o3]|] eqn:S; [|discriminate].
  injection H as <- <-. apply send_scan_mute in S.
  apply Forall_app; split; [|exact S]. apply forall_if. intros B.
  apply Forall_forall. intros x IN. apply in_map_iff in IN as (f' & <- & _). pl.
Qed.

Lemma connect_to_mute : forall adv tgt d s s' o, connect_to aes rng adv tgt d s = Some (s', o) -> Forall mute o.
Proof.
  unfold connect_to. intros adv tgt d s s' o H.
  destruct (resolve aes adv s) as [s1 r]. do 3 (destruct (_ : bool) in H at 1; [injection H as <- <-; constructor|]).
  destruct (generate _ _ _ _ _) as [s2 r2]. destruct (initiating_address _ _); [|discriminate].
  injection H as <- <-. outs. pl.
Qed.

Lemma advertise_set_mute : forall s now a a' o, advertise_set s now a = Some (a', o) -> Forall mute o.
Proof.
  unfold advertise_set. intros s now a a' o H.
  destruct (set_timeout s now a) as [a1 o1] eqn:E1.
  destruct (set_limit s a1) as [a2 o2] eqn:E2.
  destruct (set_advertise now a2) as [[a3 o3]|] eqn:E3; [|discriminate].
  destruct (set_periodic now a3) as [a4 o4] eqn:E4. injection H as <- <-.
  apply Forall_app; split; [|apply Forall_app; split; [|apply Forall_app; split]].
  - unfold set_timeout in E1. destruct (timeout a); [|injection E1 as <- <-; constructor].
    destruct (_ && _) in E1; injection E1 as <- <-; outs; pl.
  - unfold set_limit in E2. destruct (_ && _ && _) in E2; injection E2 as <- <-; outs; pl.
  - unfold set_advertise in E3. destruct (_ && _) in E3; [|injection E3 as <- <-; constructor].
    destruct (legacy_pdus _); [destruct (set_legacy_pdu _); [|discriminate]|]; injection E3 as <- <-; outs; pl.
  - unfold set_periodic in E4. destruct (_ && _) in E4; injection E4 as <- <-; outs; pl.
Qed.

Lemma advertise_sets_mute : forall s now m m' o, advertise_sets s now m = Some (m', o) -> Forall mute o.
Proof.
  intros s now. induction m as [|[k a] m IH]; cbn [advertise_sets]; intros m' o H.
  - injection H as <- <-. constructor.
  - destruct (advertise_set s now a) as [[a1 o1]|] eqn:E; [|discriminate].
    destruct (advertise_sets s now m) as [[m1 o2]|] eqn:E2; [|discriminate]. injection H as <- <-.
    apply Forall_app. split; [exact (advertise_set_mute _ _ _ _ _ E)|exact (IH _ _ eq_refl)].
Qed.

Lemma tick_mute : forall now s s' st out, step now s Tick = Ok s' st out -> Forall mute out.
Proof.
  intros now s s' st out H. cbn [LeHost.step] in H. unfold tick, le_advertising in H.
  destruct (legacy_timeout now s) as [s1 o1] eqn:E1.
  destruct (legacy_advertise now s1) as [s2 o2] eqn:E2.
  destruct (advertise_sets s2 now (sets s2)) as [[m o3]|] eqn:E3; [|discriminate].
  destruct (le_scanning now _) as [s4 o4] eqn:E4. injection H as <- <- <-.
  apply advertise_sets_mute in E3.
  apply Forall_app; split; [apply Forall_app; split; [|apply Forall_app; split]|].
  - unfold legacy_timeout in E1. destruct (l_timeout _); [destruct (_ && _) in E1|]; injection E1 as <- <-; outs; pl.
  - unfold legacy_advertise in E2. destruct (_ && _) in E2; [destruct (legacy_pdu_of _)|]; injection E2 as <- <-; outs; pl.
  - exact E3.
  - unfold le_scanning in E4. destruct (negb _) in E4; [injection E4 as <- <-; constructor|].
    destruct (_ && _) in E4; injection E4 as <- <-; outs; pl.
Qed.

Lemma handle_connection_mute : forall peer resolved own central i lat sup cs s s' h o,
  handle_connection peer resolved own central i lat sup cs s = Some (s', h, o) -> Forall mute o.
Proof.
  unfold handle_connection. intros peer resolved own central i lat sup cs s s' h o H.
  destruct (Handles.get_unused_handle _ _ _ _) as [[h' last]|]; [|discriminate]. injection H as _ _ <-. outs; pl.
Qed.

Lemma sets_connect_mute : forall m i adv x y z s s' o, sets_connect_request aes m i adv x y z s = Next s' o -> Forall mute o.
Proof.
  induction m as [|[h a] m IH]; cbn [sets_connect_request]; intros i adv x y z s s' o H.
  - injection H as <- <-. constructor.
  - destruct (set_connect_request aes h a i adv x y z s) as [e|e] eqn:E; [|exact (IH _ _ _ _ _ _ _ _ H)].
    subst e. unfold set_connect_request in E. destruct (negb _) in E; [discriminate|].
    destruct (resolve aes i s) as [s1 r]. destruct (negb _) in E; [discriminate|]. injection E as E.
    destruct (handle_connection _ _ _ _ _ _ _ _ _) as [[[s2 c] o2]|] eqn:HC; [|discriminate].
    apply handle_connection_mute in HC. injection E as <- <-. apply Forall_app. split; [exact HC|]. outs; pl.
Qed.

(** Only the reception of periodic advertising and the cancellation of a request tell the
    host about synchronisations *)
Lemma step_mute : forall now s o s' st out, step now s o = Ok s' st out -> ends_request o = false -> Forall mute out.
Proof.
  intros now s o s' st out H C. destruct o as [c|p|]; [| |exact (tick_mute _ _ _ _ _ H)].
  - cbn [LeHost.step] in H.
    assert (out = [] -> Forall mute out) as NIL by (intros ->; constructor).
    destruct c; try discriminate C; cbn [run_command] in H; unfold quiet in H;
      try (ok H; apply NIL; reflexivity); try (match type of H with (let '(_, _) := ?r in _) = _ => destruct r end; ok H; apply NIL; reflexivity).
    + unfold reset, loud in H. ok H. apply Forall_forall. intros x IN. apply in_map_iff in IN as (kv & <- & _). pl.
    + destruct (set_ext_enable _ _ _ _ _ _); [|discriminate]. ok H. constructor.
    + unfold cancel_connection, loud in H. destruct (negb _); ok H; outs; pl.
    + unfold disconnect, loud in H. destruct (lookup _ _); ok H; [|constructor]. unfold disconnection_event. outs; pl.
  - cbn [LeHost.step] in H. destruct p; try discriminate C; cbn [receive] in H.
    + unfold of_effect, receive_legacy_pdu in H. destruct (then_also _ _) as [s1 o1| |] eqn:E; try discriminate. ok H.
      apply then_also_inv in E as (s2 & o2 & o3 & E1 & E2 & ->).
      apply Forall_app; split; [exact (scan_legacy_mute _ _ _ _ _ _ _ _ E1)|]. unfold connect_legacy_pdu in E2.
      do 2 (destruct (_ : bool) in E2 at 1; [injection E2 as <- <-; constructor|]).
      exact (connect_to_mute _ _ _ _ _ _ E2).
    + unfold of_effect, receive_extended_pdu in H. destruct (then_also _ _) as [s1 o1| |] eqn:E; try discriminate. ok H.
      apply then_also_inv in E as (s2 & o2 & o3 & E1 & E2 & ->).
      apply Forall_app; split; [eapply scan_extended_mute; exact E1|]. unfold connect_extended_pdu in E2.
      do 3 (destruct (_ : bool) in E2 at 1; [injection E2 as <- <-; constructor|]).
      exact (connect_to_mute _ _ _ _ _ _ E2).
    + unfold of_pair, receive_scan in H. destruct (resolve aes scanner s) as [s1 r]. ok H.
      apply Forall_app; split.
      * unfold legacy_scan_request. outs; pl.
      * apply Forall_forall. intros x IN. apply in_flat_map in IN as (kv & _ & IN).
        unfold set_scan_request_pdu in IN. destruct (_ && _ && _) in IN; [|contradiction]. destruct IN as [<-|[]]. pl.
    + unfold of_pair, receive_scan_response in H. destruct (negb _) in H; [ok H; constructor|].
      destruct (pending_find _ _) as [q|]; [|ok H; constructor].
      destruct (resolve aes adv s) as [s1 r] eqn:R.
      destruct (filter_duplicate _ _) as [s2 f] eqn:F.
      ok H. apply Forall_app; split; apply forall_if; intros B; [outs; pl|].
      apply Forall_forall. intros x IN. apply in_map_iff in IN as (f' & <- & _). pl.
    + unfold of_effect, receive_connect in H.
      destruct (legacy_connect_request aes initiator adv interval latency supervision s) as [e|e] eqn:E.
      * unfold legacy_connect_request in E. destruct (negb _) in E; [discriminate|].
        destruct (resolve aes initiator s) as [s1 r]. destruct (negb _) in E; [discriminate|]. injection E as <-.
        destruct (handle_connection _ _ _ _ _ _ _ _ _) as [[[s2 c] o2]|] eqn:HC; [|discriminate].
        apply handle_connection_mute in HC. ok H. apply Forall_app. split; [exact HC|]. outs; pl.
      * destruct (sets_connect_request aes (sets e) _ _ _ _ _ e) as [s1 o1| |] eqn:E1; try discriminate. ok H.
        exact (sets_connect_mute _ _ _ _ _ _ _ _ _ E1).
    + unfold of_effect, receive_connect_complete in H. destruct (_ && _) in H; [ok H; constructor|].
      destruct (if is_rpa adv then _ else _) as [s1 r] eqn:R.
      destruct (handle_connection _ _ _ _ _ _ _ _ _) as [[[s2 c] o2]|] eqn:HC; [|discriminate]. ok H.
      exact (handle_connection_mute _ _ _ _ _ _ _ _ _ _ _ _ HC).
    + unfold of_pair, receive_disconnect in H. destruct (find_connection _ _ _); ok H; [|constructor].
      unfold disconnection_event. outs; pl.
Qed.

Lemma mute_events o : Forall mute o -> (forall l, fold_left note_sync (notified o) l = l) /\ List.filter is_answer (notified o) = [] /\ existsb is_answer (notified o) = false.
Proof.
  induction 1 as [|x o P F (I1 & I2 & I3)]; [repeat split|]. cbn [notified flat_map]. fold (notified o).
  destruct x as [p|e]; cbn [app fold_left List.filter existsb]; [repeat split; assumption|].
  destruct e; try contradiction; cbn [note_sync is_answer orb]; repeat split; assumption.
Qed.

(** * What each step does *)

Definition train_eqb (x y : train) : bool :=
  let '(k, a, sid) := x in let '(k', a', sid') := y in peer_type_eqb k k' && list_eqb a a' && (sid =? sid').
Lemma train_eqb_eq x y : train_eqb x y = true <-> x = y.
Proof.
  destruct x as [[k a] sid], y as [[k' a'] sid']. unfold train_eqb. rewrite !andb_true_iff, peer_type_eqb_eq, list_eqb_eq, N.eqb_eq.
  split; [intros ((-> & ->) & ->); reflexivity|intros [= -> -> ->]; auto].
Qed.

Lemma first_unused_least (m : table synchronized) : least_unused (keys m) (first_unused (length m) m 0).
Proof.
  assert (G : forall f h, (forall j, j < h -> In j (keys m)) ->
    (forall j, j < first_unused f m h -> In j (keys m)) /\ (In (first_unused f m h) (keys m) -> first_unused f m h = h + N.of_nat f)).
  { induction f as [|f IH]; intros h L; cbn [first_unused]; [split; [exact L|intros _; lia]|].
    destruct (has m h) eqn:E.
    - apply has_spec in E. destruct (IH (h + 1)) as [I1 I2].
      { intros j J. destruct (N.eq_dec j h) as [->|]; [exact E|apply L; lia]. }
      split; [exact I1|]. intros X. rewrite (I2 X). lia.
    - apply has_false in E. split; [exact L|]. intros X. contradiction. }
  destruct (G (length m) 0) as [G1 G2]; [intros j J; lia|]. split; [|exact G1]. intros X. pose proof (G2 X) as Z.
  assert (I : incl (map N.of_nat (seq 0 (S (length m)))) (keys m)).
  { intros j J. apply in_map_iff in J as (n & <- & J). apply in_seq in J. destruct (Nat.eq_dec n (length m)) as [->|].
    - rewrite Z in X. replace (N.of_nat (length m)) with (0 + N.of_nat (length m)) by lia. exact X.
    - apply G1. rewrite Z. lia. }
  apply NoDup_incl_length in I; [|apply FinFun.Injective_map_NoDup; [intros a b; lia|apply seq_NoDup]].
  unfold keys in I. rewrite !map_length, seq_length in I. lia.
Qed.

(** The controller's lists know the train *)
Definition wanted (s : le) (r : request) (t : train) : Prop := match r with Some x => x = t | None => In t (padv s) end.
Definition sync_of (kv : N * synchronized) : N * train := (fst kv, (sd_kind (snd kv), sd_address (snd kv), sd_sid (snd kv))).

Lemma resolve_who a s s' r : resolve aes a s = (s', r) -> known_as aes s a r.
Proof.
  unfold resolve. pose proof (who_known aes s a) as W. unfold who in W. destruct (resolve_private_address _ _ _ _) as [l x]. cbn [snd] in W.
  intros [= <- <-]. exact W.
Qed.

Lemma padv_match_train i sid l : existsb (padv_match (to_peer_type (awt_type i)) (awt_addr i) sid) l = true <-> In (train_of i sid) l.
Proof.
  rewrite existsb_exists. split.
  - intros ([[k a] x] & I & M). cbn [padv_match] in M. apply andb_true_iff in M as [M M3]. apply andb_true_iff in M as [M1 M2].
    apply peer_type_eqb_eq in M1. apply list_eqb_eq in M2. apply N.eqb_eq in M3. subst. exact I.
  - intros I. exists (train_of i sid). split; [exact I|]. unfold train_of, padv_match. 
    apply andb_true_iff. split; [apply andb_true_iff; split|]; [now apply peer_type_eqb_eq|now apply list_eqb_eq|apply N.eqb_refl].
Qed.

Lemma synced_match_train i sid d : synced_match (to_peer_type (awt_type i)) (awt_addr i) sid d = train_eqb (sd_kind d, sd_address d, sd_sid d) (train_of i sid).
Proof. reflexivity. Qed.

Lemma periodic_effect now s adv sid power pi data s' st out : step now s (Receive (AirPeriodic adv sid power pi data)) = Ok s' st out ->
  (~ scanning s /\ s' = s /\ out = [])
  \/ scanning s /\ exists i, known_as aes s adv i /\
     ((exists r k, request_of s = Some r /\ wanted s r (train_of i sid) /\ least_unused (map fst (syncs_of s)) k
        /\ syncs_of s' = syncs_of s ++ [(k, train_of i sid)] /\ request_of s' = None
        /\ out = if le_event_unmasked s 14 then [Notified (EvSyncEstablished SUCCESS k sid i pi)] else [])
      \/ ((forall r, request_of s = Some r -> ~ wanted s r (train_of i sid)) /\ syncs_of s' = syncs_of s /\ request_of s' = request_of s
        /\ out = if le_event_unmasked s 15
                 then flat_map (fun y => if train_eqb (snd y) (train_of i sid)
                                         then map (fun f => Notified (EvPeriodicReport (fst y) (fst f) (snd f))) (fragments (length data) 247 data)
                                         else []) (syncs_of s)
                 else [])).
Proof.
  intros S. cbn [LeHost.step receive] in S. unfold of_pair, receive_periodic in S. unfold scanning.
  destruct (scan_enabled (scan s)) eqn:SC; cbn [negb] in S; [|ok S; left; split; [intros [X _]; discriminate X|auto]].
  destruct (extended_used s) eqn:EX; cbn [negb] in S; [|ok S; left; split; [intros [_ X]; discriminate X|auto]].
  right. split; [auto|]. destruct (resolve aes adv s) as [s2 i] eqn:R. exists i. split; [exact (resolve_who _ _ _ _ R)|].
  apply resolve_frame in R as (l & -> & _). cbv zeta in S. le_simpl_in S.
  set (t := train_of i sid) in *.
  assert (W : forall y, syncing s = Some y ->
    ((if sy_use_list y then existsb (padv_match (to_peer_type (awt_type i)) (awt_addr i) sid) (padv s)
      else peer_type_eqb (sy_kind y) (to_peer_type (awt_type i)) && list_eqb (sy_address y) (awt_addr i) && (sy_sid y =? sid)) = true
     <-> wanted s (if sy_use_list y then None else Some (sy_kind y, sy_address y, sy_sid y)) t)).
  { intros y _. destruct (sy_use_list y); cbn [wanted]; [apply padv_match_train|].
    rewrite <- (train_eqb_eq (sy_kind y, sy_address y, sy_sid y) t). reflexivity. }
  unfold request_of. destruct (syncing s) as [y|] eqn:SY; [specialize (W _ eq_refl)|clear W].
  - match type of S with context [match (if ?b then _ else _) with _ => _ end] => destruct b eqn:B in S end.
    + left. rewrite B in W. exists (if sy_use_list y then None else Some (sy_kind y, sy_address y, sy_sid y)), (first_unused (length (synced s)) (synced s) 0).
      destruct (first_unused_least (synced s)) as [F1 F2].
      split; [reflexivity|]. split; [now apply W|]. 
      split; [unfold syncs_of; rewrite map_map; split; [exact F1|exact F2]|].
      change (le_event_unmasked (with_resolving l s) 14) with (le_event_unmasked s 14) in S. ok S. le_simpl.
      split; [|split; reflexivity]. unfold syncs_of. le_simpl. rewrite put_absent by exact F1. rewrite map_app. reflexivity.
    + right. rewrite B in W. split; [intros r [= <-] X; apply W in X; discriminate|].
      change (le_event_unmasked (with_resolving l s) 15) with (le_event_unmasked s 15) in S. ok S. le_simpl.
      unfold syncs_of. le_simpl. rewrite SY. rewrite !map_map. split; [|split; [reflexivity|]].
      * apply map_ext. intros [k d]. cbn [fst snd]. destruct (synced_match _ _ _ _); reflexivity.
      * destruct (le_event_unmasked s 15); [|reflexivity]. rewrite !flat_map_concat_map, map_map. reflexivity.
  - right. split; [discriminate|].
    change (le_event_unmasked (with_resolving l s) 15) with (le_event_unmasked s 15) in S. ok S. le_simpl.
    unfold syncs_of. le_simpl. rewrite SY. rewrite !map_map. split; [|split; [reflexivity|]].
    + apply map_ext. intros [k d]. cbn [fst snd]. destruct (synced_match _ _ _ _); reflexivity.
    + destruct (le_event_unmasked s 15); [|reflexivity]. rewrite !flat_map_concat_map, map_map. reflexivity.
Qed.

Lemma answers_masks h s : history h s -> hears_answers h -> le_event_unmasked s 14 = true.
Proof.
  intros H (L1 & L2). destruct (masks_of _ _ _ _ _ H) as [M1 M2]. unfold le_event_unmasked, event_unmasked.
  change (62 <=? 64) with true. cbv beta iota. change (62 - 1) with 61. change (14 - 1) with 13. now rewrite M1, M2, L1, L2.
Qed.
Lemma reports_masks h s : history h s -> hears_reports h -> le_event_unmasked s 15 = true.
Proof.
  intros H (L1 & L2). destruct (masks_of _ _ _ _ _ H) as [M1 M2]. unfold le_event_unmasked, event_unmasked.
  change (62 <=? 64) with true. cbv beta iota. change (62 - 1) with 61. change (15 - 1) with 14. now rewrite M1, M2, L1, L2.
Qed.

(** The reports say nothing about the synchronisations themselves *)
Lemma reporting_events o : Forall reporting o -> (forall l, fold_left note_sync (notified o) l = l) /\ List.filter is_answer (notified o) = [] /\ existsb is_answer (notified o) = false.
Proof.
  induction 1 as [|x o P F (I1 & I2 & I3)]; [repeat split|]. cbn [notified flat_map]. fold (notified o).
  destruct x as [p|e]; [contradiction|]. destruct e; try contradiction. cbn [app fold_left List.filter existsb note_sync is_answer orb]. repeat split; assumption.
Qed.
Lemma reporting_all (b : bool) (g : N * train -> bool) fs (l : list (N * train)) :
  Forall reporting (if b then flat_map (fun y => if g y then map (fun f : bool * list N => Notified (EvPeriodicReport (fst y) (fst f) (snd f))) fs else []) l else []).
Proof.
  apply forall_if. intros _. apply Forall_forall. intros x IN. apply in_flat_map in IN as (y & _ & IN). destruct (g y); [|contradiction].
  apply in_map_iff in IN as (f & <- & _). exact Logic.I.
Qed.

(** What the host keeps agrees with what the controller has *)
Definition agrees (h : list entry) (s : le) : Prop :=
  syncs_of s = syncs h /\ request_of s = pending h /\ requests h = sync_answers h + (if pending h then 1 else 0).

Lemma plain_step h s now o s' st out : agrees h s -> Forall mute out -> syncs_of s' = syncs_of s -> request_of s' = request_of s ->
  (forall c, o = Command c -> match c with Reset => False | TerminateSync _ | CreateSync _ _ _ _ _ _ _ _ => st <> Some SUCCESS | _ => True end) ->
  agrees (Entry now o st out :: h) s'.
Proof.
  intros (A1 & A2 & A3) M E1 E2 C. destruct (mute_events _ M) as (F1 & F2 & F3).
  unfold agrees. rewrite E1, E2, A1, A2.
  assert (Q : syncs (Entry now o st out :: h) = syncs h /\ pending (Entry now o st out :: h) = pending h
    /\ requests (Entry now o st out :: h) = requests h /\ sync_answers (Entry now o st out :: h) = sync_answers h).
  { cbn [syncs pending requests sync_answers what status_of sent]. rewrite F1, F2, F3. change (lenN []) with 0. rewrite N.add_0_l.
    destruct o as [c|p|]; [|auto|auto]. specialize (C c eq_refl).
    destruct c; try contradiction; try (repeat split; reflexivity); destruct st as [[]|]; try (repeat split; reflexivity); congruence. }
  destruct Q as (-> & -> & -> & ->). auto.
Qed.

Lemma always_agrees h s : history h s -> hears_syncs h -> agrees h s.
Proof.
  induction 1 as [a|h s now o s' st out H IH S]; intros L; [repeat split|].
  cbn [hears_syncs what] in L. destruct L as [L LL]. specialize (IH L).
  destruct (touches o PSyncing || touches o PSynced) eqn:T.
  - destruct o as [c|p|]; [destruct c; try discriminate T|destruct p; try discriminate T|discriminate T].
    + cbn [LeHost.step run_command] in S. unfold reset, loud in S. ok S. repeat split.
    + cbn [LeHost.step run_command] in S. unfold create_sync, quiet in S.
      pose proof IH as (A1 & A2 & A3). unfold request_of in A2.
      destruct (syncing s) as [y|] eqn:SY; cbn [is_some] in S.
      { ok S. apply (plain_step h s); auto. intros c [= <-]. discriminate. }
      assert (REJ : forall x, x <> SUCCESS -> agrees (Entry now (Command (CreateSync use_list no_report dup sid k a timeout cte)) (Some x) [] :: h) s).
      { intros x X. apply (plain_step h s); auto. intros c [= <-]. congruence. }
      destruct (N.land cte 31 =? 31) in S; [ok S; apply REJ; congruence|]. destruct (negb use_list && _) in S; [ok S; apply REJ; congruence|].
      destruct (_ && _ && _) in S; [ok S; apply REJ; congruence|]. destruct (_ && _) in S; [ok S; apply REJ; congruence|].
      ok S. unfold agrees, syncs_of, request_of. le_simpl. cbn [syncs pending requests sync_answers what status_of sent notified flat_map fold_left List.filter].
      unfold syncs_of in A1. rewrite A1. split; [reflexivity|]. split; [destruct use_list; reflexivity|]. cbn [option_map] in A2. rewrite <- A2 in A3. rewrite A3. change (lenN []) with 0. destruct use_list; lia.
    + cbn [LeHost.step run_command] in S. unfold cancel_sync, loud in S. specialize (LL eq_refl). pose proof (answers_masks _ _ H LL) as U.
      pose proof IH as (A1 & A2 & A3). unfold request_of in A2.
      destruct (syncing s) as [y|] eqn:SY; cbn [is_some] in S.
      * rewrite U in S. ok S. unfold agrees, syncs_of, request_of. le_simpl. cbn [syncs pending requests sync_answers what status_of sent notified flat_map fold_left List.filter existsb app is_answer orb note_sync option_map].
        split; [exact A1|]. split; [reflexivity|]. cbn [option_map] in A2. rewrite <- A2 in A3. rewrite A3. change (lenN [_]) with 1. lia.
      * ok S. apply (plain_step h s); auto. intros c [= <-]. exact Logic.I.
    + cbn [LeHost.step run_command] in S. unfold terminate_sync, quiet in S. destruct (has (synced s) h0) eqn:HS; ok S.
      * pose proof IH as (A1 & A2 & A3). unfold agrees. cbn [syncs pending requests sync_answers what status_of sent notified flat_map List.filter existsb].
        split; [|split; [exact A2|exact A3]]. rewrite <- A1. unfold syncs_of. le_simpl. clear. unfold erase.
        induction (synced s) as [|[k d] m IHm]; [reflexivity|]. cbn [List.filter map fst]. destruct (negb (k =? h0)); cbn [map fst]; rewrite IHm; reflexivity.
      * apply (plain_step h s); auto. intros c [= <-]. discriminate.
    + specialize (LL eq_refl). pose proof (answers_masks _ _ H LL) as U. destruct IH as (A1 & A2 & A3).
      destruct (periodic_effect _ _ _ _ _ _ _ _ _ _ S) as [(_ & -> & ->)|(_ & i & _ & [(r & k & R & _ & _ & E1 & E2 & ->)|(_ & E1 & E2 & ->)])].
      * apply (plain_step h s); [split; auto|constructor| | |]; try reflexivity. intros c [=].
      * rewrite U. unfold agrees. rewrite E1, E2, A1. cbn [syncs pending requests sync_answers what status_of sent notified flat_map fold_left List.filter existsb app is_answer orb note_sync].
        split; [reflexivity|]. split; [reflexivity|]. rewrite A3. rewrite <- A2, R. change (lenN [_]) with 1. lia.
      * unfold agrees. rewrite E1, E2, A1, A2. cbn [syncs pending requests sync_answers what status_of sent].
        match goal with |- context [notified ?o] => destruct (reporting_events o (reporting_all _ _ _ _)) as (F1 & F2 & F3) end.
        rewrite F1, F2, F3. change (lenN []) with 0. rewrite N.add_0_l. auto.
  - apply orb_false_iff in T as [T1 T2].
    pose proof (step_same _ _ _ _ _ _ _ _ _ S PSyncing T1) as E1. pose proof (step_same _ _ _ _ _ _ _ _ _ S PSynced T2) as E2. cbn [same] in E1, E2.
    apply (plain_step h s); auto.
    + apply (step_mute _ _ _ _ _ _ S). destruct o as [c|p|]; [destruct c; try reflexivity; discriminate T1|destruct p; try reflexivity; discriminate T1|reflexivity].
    + unfold syncs_of. now rewrite E2.
    + unfold request_of. now rewrite E1.
    + intros c ->. destruct c; try exact Logic.I; try discriminate.
Qed.

(** * The theorems *)

(** The host knows exactly the synchronisations of the controller, and whether one is pending *)
Theorem sync_ledger h s : history h s -> hears_syncs h -> syncs_of s = syncs h /\ request_of s = pending h.
Proof. intros H L. destruct (always_agrees _ _ H L) as (A & B & _). auto. Qed.

(** Each accepted request is answered once, or waits *)
Theorem requests_counted h s : history h s -> hears_syncs h -> requests h = sync_answers h + (if pending h then 1 else 0).
Proof. intros H L. destruct (always_agrees _ _ H L) as (_ & _ & C). exact C. Qed.

Lemma map_fst_syncs s : map fst (syncs_of s) = keys (synced s).
Proof. unfold syncs_of, keys. rewrite map_map. reflexivity. Qed.

Theorem sync_handles_distinct h s : history h s -> hears_syncs h -> NoDup (map fst (syncs h)).
Proof. intros H L. destruct (sync_ledger _ _ H L) as [<- _]. rewrite map_fst_syncs. exact (synced_nodup _ _ _ _ _ H). Qed.

Lemma pieces_of t data l k : NoDup (map fst l) ->
  let o := flat_map (fun y => if train_eqb (snd y) t then map (fun f => Notified (EvPeriodicReport (fst y) (fst f) (snd f))) (fragments (length data) 247 data) else []) l in
  (In (k, t) l -> whole 247 data (periodic_pieces k o)) /\ (~ In (k, t) l -> periodic_pieces k o = []).
Proof.
  cbv zeta. induction l as [|[j u] l IH]; intros ND; [split; [intros []|reflexivity]|].
  inversion ND as [|? ? N1 N2]; subst. specialize (IH N2). cbn [flat_map fst snd]. rewrite periodic_pieces_app.
  destruct (N.eq_dec j k) as [->|D].
  - assert (Z : ~ In (k, t) l) by (intros X; apply N1; apply in_map_iff; exists (k, t); auto).
    rewrite (proj2 IH Z), app_nil_r. destruct (train_eqb u t) eqn:E.
    + apply train_eqb_eq in E. subst u. rewrite periodic_pieces_map, N.eqb_refl. split; [intros _|intros X; elim X; now left].
      apply (fragments_whole aes rng); [reflexivity|reflexivity].
    + split; [|reflexivity]. intros [[= ->]|X]; [|contradiction]. rewrite (proj2 (train_eqb_eq t t) eq_refl) in E. discriminate.
  - assert (Z : periodic_pieces k (if train_eqb u t then map (fun f : bool * list N => Notified (EvPeriodicReport j (fst f) (snd f))) (fragments (length data) 247 data) else []) = []).
    { destruct (train_eqb u t); [|reflexivity]. rewrite periodic_pieces_map. destruct (N.eqb_spec j k); [contradiction|reflexivity]. }
    rewrite Z. cbn [app]. split; intros X.
    + apply (proj1 IH). destruct X as [[= -> _]|X]; [contradiction|exact X].
    + apply (proj2 IH). intros Y. apply X. now right.
Qed.

(** What the reception of a periodic advertising packet means to the host *)
Theorem packet_received h s now adv sid power pi data s' st out : history h s -> hears_syncs h -> hears_answers h -> hears_reports h -> scanning s ->
  step now s (Receive (AirPeriodic adv sid power pi data)) = Ok s' st out ->
  exists i, known_as aes s adv i /\
    ((exists r k, pending h = Some r /\ asked_for h r (train_of i sid) /\ least_unused (map fst (syncs h)) k
        /\ out = [Notified (EvSyncEstablished SUCCESS k sid i pi)])
     \/ ((forall r, pending h = Some r -> ~ asked_for h r (train_of i sid)) /\ Forall reporting out
        /\ forall k, (In (k, train_of i sid) (syncs h) -> whole 247 data (periodic_pieces k out))
                     /\ (~ In (k, train_of i sid) (syncs h) -> periodic_pieces k out = []))).
Proof.
  intros H L LA LR SC S. destruct (sync_ledger _ _ H L) as [E1 E2].
  assert (W : forall r t, wanted s r t <-> asked_for h r t).
  { intros [x|] t; cbn [wanted asked_for]; [tauto|]. symmetry. exact (padv_replay _ _ _ _ _ H t). }
  destruct (periodic_effect _ _ _ _ _ _ _ _ _ _ S) as [(NS & _)|(_ & i & K & [(r & k & R & X & U & _ & _ & ->)|(X & _ & _ & ->)])]; [contradiction| |]; exists i; (split; [exact K|]).
  - left. exists r, k. rewrite <- E1, <- E2. rewrite (answers_masks _ _ H LA). split; [exact R|]. split; [now apply W|]. split; [exact U|reflexivity].
  - right. split; [intros r P Y; rewrite <- E2 in P; apply (X r P); now apply W|]. split; [apply reporting_all|].
    rewrite (reports_masks _ _ H LR). rewrite <- E1. intros k. apply (pieces_of (train_of i sid) data (syncs_of s) k).
    rewrite map_fst_syncs. exact (synced_nodup _ _ _ _ _ H).
Qed.

(** An event about synchronisations comes from a packet, or from a cancellation *)
Theorem sync_events_come_from now s o s' st out e : step now s o = Ok s' st out -> In (Notified e) out ->
  match e with
  | EvPeriodicReport _ _ _ | EvSyncEstablished SUCCESS _ _ _ _ => exists adv sid power pi data, o = Receive (AirPeriodic adv sid power pi data) /\ scanning s
  | EvSyncEstablished st' _ _ _ _ => o = Command CancelSync /\ st' = OPERATION_CANCELLED
  | _ => True
  end.
Proof.
  intros S IN. destruct (ends_request o) eqn:E.
  - destruct o as [c|p|]; [destruct c; try discriminate E|destruct p; try discriminate E|discriminate E].
    + cbn [LeHost.step run_command] in S. unfold cancel_sync, loud in S. destruct (is_some _); ok S; [|contradiction].
      destruct (le_event_unmasked _ _); [|contradiction]. destruct IN as [[= <-]|[]]. auto.
    + destruct (periodic_effect _ _ _ _ _ _ _ _ _ _ S) as [(_ & -> & ->)|(SC & i & _ & [(r & k & _ & _ & _ & _ & _ & ->)|(_ & _ & _ & ->)])].
      * contradiction.
      * destruct (le_event_unmasked _ _); [|contradiction]. destruct IN as [[= <-]|[]]. eauto 8.
      * pose proof (reporting_all (le_event_unmasked s 15) (fun y => train_eqb (snd y) (train_of i sid)) (fragments (length data) 247 data) (syncs_of s)) as F.
        rewrite Forall_forall in F. specialize (F _ IN). destruct e; try contradiction. eauto 8.
  - pose proof (step_mute _ _ _ _ _ _ S E) as F. rewrite Forall_forall in F. specialize (F _ IN). destruct e; try exact Logic.I; contradiction.
Qed.

(** A report is only about a synchronisation of the host, with the sender of the packet *)
Theorem report_is_known h s now o s' st out k more d : history h s -> hears_syncs h -> step now s o = Ok s' st out -> In (Notified (EvPeriodicReport k more d)) out ->
  exists adv sid power pi data i, o = Receive (AirPeriodic adv sid power pi data) /\ known_as aes s adv i /\ In (k, train_of i sid) (syncs h).
Proof.
  intros H L S IN. destruct (sync_events_come_from _ _ _ _ _ _ _ S IN) as (adv & sid & power & pi & data & -> & SC).
  destruct (sync_ledger _ _ H L) as [E1 _]. exists adv, sid, power, pi, data.
  destruct (periodic_effect _ _ _ _ _ _ _ _ _ _ S) as [(_ & _ & ->)|(_ & i & K & [(r & k' & _ & _ & _ & _ & _ & ->)|(_ & _ & _ & ->)])].
  - contradiction.
  - destruct (le_event_unmasked _ _); [|contradiction]. destruct IN as [[=]|[]].
  - exists i. split; [reflexivity|]. split; [exact K|]. destruct (le_event_unmasked _ _); [|contradiction].
    apply in_flat_map in IN as ([k' u] & IN1 & IN2). cbn [fst snd] in IN2. destruct (train_eqb u (train_of i sid)) eqn:E; [|contradiction].
    apply train_eqb_eq in E. subst u. apply in_map_iff in IN2 as (f & [= -> _ _] & _). rewrite <- E1. exact IN1.
Qed.

(** The status of a request *)
Theorem requesting h s now ul nr dup sid k a t c : history h s -> hears_syncs h ->
  exists s' st, step now s (Command (CreateSync ul nr dup sid k a t c)) = Ok s' (Some st) [] /\
    (st <> SUCCESS -> s' = s) /\
    (st = SUCCESS <-> pending h = None /\ ~ excludes_all c /\ (ul = false -> ~ In (k, a, sid) (map snd (syncs h)))
                      /\ (nr = false -> dup = true -> cfg_adi cfg = true) /\ (nr = true -> cfg_receive_enable cfg = true)) /\
    (pending h <> None -> st = COMMAND_DISALLOWED).
Proof.
  intros H L. destruct (sync_ledger _ _ H L) as [E1 E2]. cbn [LeHost.step run_command]. unfold create_sync, quiet.
  rewrite <- E1, <- E2. unfold request_of. destruct (syncing s) as [y|] eqn:SY; cbn [is_some option_map].
  { eexists _, _. split; [reflexivity|]. split; [reflexivity|]. split; [split; [discriminate|intros [X _]; discriminate X]|reflexivity]. }
  assert (X : N.land c 31 =? 31 = true <-> excludes_all c).
  { rewrite N.eqb_eq. unfold excludes_all. split.
    - intros X b B. assert (Y : N.testbit (N.land c 31) b = true).
      { rewrite X. assert (b = 0 \/ b = 1 \/ b = 2 \/ b = 3 \/ b = 4) as [-> | [-> | [-> | [-> | ->]]]] by lia; reflexivity. }
      rewrite N.land_spec in Y. now apply andb_true_iff in Y as [Y _].
    - intros X. apply N.bits_inj. intros b. rewrite N.land_spec. destruct (N.ltb_spec b 5) as [B|B].
      + rewrite (X b B). reflexivity.
      + replace (N.testbit 31 b) with false; [apply andb_false_r|]. symmetry. change 31 with (N.ones 5). now apply N.ones_spec_high. }
  assert (Y : existsb (fun kv => synced_match k a sid (snd kv)) (synced s) = true <-> In (k, a, sid) (map snd (syncs_of s))).
  { unfold syncs_of. rewrite map_map. cbn [snd]. rewrite existsb_exists, in_map_iff. split.
    - intros (kv & I & M). exists kv. split; [|exact I]. change (train_eqb (sd_kind (snd kv), sd_address (snd kv), sd_sid (snd kv)) (k, a, sid) = true) in M.
      now apply train_eqb_eq in M.
    - intros (kv & M & I). exists kv. split; [exact I|]. change (train_eqb (sd_kind (snd kv), sd_address (snd kv), sd_sid (snd kv)) (k, a, sid) = true).
      now apply train_eqb_eq. }
  destruct (N.land c 31 =? 31) eqn:B1.
  { eexists _, _. split; [reflexivity|]. split; [reflexivity|]. split; [split; [discriminate|intros (_ & Z & _); elim Z; now apply X]|congruence]. }
  destruct (existsb _ (synced s)) eqn:B2.
  - destruct ul; cbn [negb andb].
    + destruct nr, dup, (cfg_adi cfg) eqn:CA, (cfg_receive_enable cfg) eqn:CR; cbn [negb andb]; eexists _, _; (split; [reflexivity|]);
      (split; [first [reflexivity|congruence]|]); (split; [split; [try discriminate; intros _; repeat split; try congruence; intros Z; apply X in Z; discriminate|
        intros (_ & _ & _ & Z1 & Z2); try reflexivity; exfalso; first [discriminate (Z1 eq_refl eq_refl)|discriminate (Z2 eq_refl)]]|intros Z; elim Z; reflexivity]).
    + eexists _, _. split; [reflexivity|]. split; [reflexivity|]. split; [split; [discriminate|intros (_ & _ & Z & _); elim (Z eq_refl); now apply Y]|intros Z; elim Z; reflexivity].
  - rewrite andb_false_r.
    destruct nr, dup, (cfg_adi cfg) eqn:CA, (cfg_receive_enable cfg) eqn:CR; cbn [negb andb]; eexists _, _; (split; [reflexivity|]);
      (split; [first [reflexivity|congruence]|]); (split; [split; [first [discriminate | intros _; repeat split; try congruence; [intros Z; apply X in Z; discriminate|intros _ Z; apply Y in Z; discriminate]]|
        intros (_ & _ & _ & Z1 & Z2); try reflexivity; exfalso; first [discriminate (Z1 eq_refl eq_refl)|discriminate (Z2 eq_refl)]]|intros Z; elim Z; reflexivity]).
Qed.

(** Cancelling a request answers it *)
Theorem cancelling_sync h s now : history h s -> hears_syncs h -> hears_answers h ->
  exists s', step now s (Command CancelSync) = (if pending h then Ok s' (Some SUCCESS) [Notified (EvSyncEstablished OPERATION_CANCELLED 0 0 no_address 0)]
                                                 else Ok s (Some COMMAND_DISALLOWED) []).
Proof.
  intros H L LA. destruct (sync_ledger _ _ H L) as [_ E2]. cbn [LeHost.step run_command]. unfold cancel_sync, loud. rewrite <- E2. unfold request_of.
  destruct (syncing s) as [y|]; cbn [is_some option_map]; [|exists s; reflexivity]. rewrite (answers_masks _ _ H LA). eexists. reflexivity.
Qed.

(** Ending a synchronisation *)
Theorem terminating_sync h s now k : history h s -> hears_syncs h ->
  (In k (map fst (syncs h)) -> exists s', step now s (Command (TerminateSync k)) = Ok s' (Some SUCCESS) []) /\
  (~ In k (map fst (syncs h)) -> step now s (Command (TerminateSync k)) = Ok s (Some UNKNOWN_ADVERTISING_ID) []).
Proof.
  intros H L. destruct (sync_ledger _ _ H L) as [<- _]. rewrite map_fst_syncs. cbn [LeHost.step run_command]. unfold terminate_sync, quiet. split; intros X.
  - apply has_spec in X. rewrite X. eauto.
  - apply has_false in X. rewrite X. reflexivity.
Qed.

(** Nothing but these commands ends a synchronisation *)
Theorem sync_kept now s o s' st out y : step now s o = Ok s' st out -> In y (syncs_of s) -> o <> Command Reset -> o <> Command (TerminateSync (fst y)) -> In y (syncs_of s').
Proof.
  intros S I N1 N2. destruct (touches o PSynced) eqn:T.
  - destruct o as [c|p|]; [destruct c; try discriminate T|destruct p; try discriminate T|discriminate T].
    + contradiction.
    + cbn [LeHost.step run_command] in S. unfold terminate_sync, quiet in S. destruct (has _ _); ok S; [|exact I]. unfold syncs_of in *. le_simpl.
      apply in_map_iff in I as (kv & <- & I). cbn [fst] in N2. apply in_map_iff. exists kv. split; [reflexivity|]. apply in_erase. split; [exact I|congruence].
    + destruct (periodic_effect _ _ _ _ _ _ _ _ _ _ S) as [(_ & -> & _)|(_ & i & _ & [(r & k & _ & _ & _ & -> & _)|(_ & -> & _)])]; [exact I| |exact I].
      apply in_or_app. now left.
  - pose proof (step_same _ _ _ _ _ _ _ _ _ S PSynced T) as E. cbn [same] in E. unfold syncs_of in *. now rewrite E.
Qed.

(** Without the periodic advertiser list, one synchronisation for each train *)
Theorem trains_distinct h s : history h s -> hears_syncs h -> names_trains h -> NoDup (map snd (syncs h)).
Proof.
  intros H L NT. destruct (sync_ledger _ _ H L) as [<- _].
  cut (NoDup (map snd (syncs_of s)) /\ forall y, syncing s = Some y -> sy_use_list y = false /\ ~ In (sy_kind y, sy_address y, sy_sid y) (map snd (syncs_of s))); [tauto|].
  clear L. induction H as [a|h s now o s' st out H IH S]; [split; [constructor|discriminate]|].
  assert (NT' : names_trains h) by (intros e I; apply NT; now right). specialize (IH NT'). destruct IH as [D P].
  destruct (touches o PSyncing || touches o PSynced) eqn:T.
  - destruct o as [c|p|]; [destruct c; try discriminate T|destruct p; try discriminate T|discriminate T].
    + cbn [LeHost.step run_command] in S. unfold reset, loud in S. ok S. split; [constructor|discriminate].
    + cbn [LeHost.step run_command] in S. unfold create_sync, quiet in S.
      destruct (is_some (syncing s)) in S; [ok S; auto|]. destruct (N.land cte 31 =? 31) in S; [ok S; auto|].
      destruct (negb use_list && _) eqn:B in S; [ok S; auto|]. destruct (_ && _ && _) in S; [ok S; auto|]. destruct (_ && _) in S; [ok S; auto|]. ok S.
      split; [exact D|]. le_simpl. intros y [= <-]. le_simpl.
      destruct use_list.
      { elim (NT _ (or_introl eq_refl) _ _ _ _ _ _ _ eq_refl). reflexivity. }
      split; [reflexivity|]. cbn [negb andb] in B. intros X. unfold syncs_of in X. le_simpl_in X. rewrite map_map in X. apply in_map_iff in X as (kv & X1 & X2). cbn [snd] in X1.
      assert (Z : existsb (fun kv : N * synchronized => synced_match k a sid (snd kv)) (synced s) = true).
      { apply existsb_exists. exists kv. split; [exact X2|]. change (train_eqb (sd_kind (snd kv), sd_address (snd kv), sd_sid (snd kv)) (k, a, sid) = true). now apply train_eqb_eq. }
      congruence.
    + cbn [LeHost.step run_command] in S. unfold cancel_sync, loud in S. destruct (is_some _); ok S; [|auto]. split; [exact D|discriminate].
    + cbn [LeHost.step run_command] in S. unfold terminate_sync, quiet in S. destruct (has _ _); ok S; [|auto].
      unfold syncs_of in *. le_simpl. rewrite map_map in *. cbn [snd] in *. 
      assert (G : forall m, incl (map (fun x => (sd_kind (snd x), sd_address (snd x), sd_sid (snd x))) (erase m h0)) (map (fun x : N * synchronized => (sd_kind (snd x), sd_address (snd x), sd_sid (snd x))) m)).
      { intros m x X. apply in_map_iff in X as (kv & <- & X). apply in_erase in X as [X _]. apply in_map_iff. eauto. }
      split.
      * clear P. unfold erase in *. induction (synced s) as [|[k d] m IHm]; [constructor|]. cbn [map snd] in D. inversion D as [|? ? D1 D2]; subst. cbn [List.filter fst].
        destruct (negb (k =? h0)); cbn [map snd]; [|exact (IHm D2)]. constructor; [|exact (IHm D2)]. intros X. apply D1. exact (G m _ X).
      * intros y Y. destruct (P y Y) as [P1 P2]. split; [exact P1|]. intros X. apply P2. exact (G _ _ X).
    + destruct (periodic_effect _ _ _ _ _ _ _ _ _ _ S) as [(_ & -> & _)|(_ & i & _ & [(r & k & R & W & _ & E1 & E2 & _)|(_ & E1 & E2 & _)])]; [auto| |].
      * rewrite E1. unfold request_of in R, E2. destruct (syncing s) as [y|] eqn:SY; [|discriminate]. destruct (P y eq_refl) as [P1 P2]. cbn [option_map] in R. rewrite P1 in R. injection R as <-. cbn [wanted] in W.
        split.
        { rewrite map_app. cbn [map snd]. rewrite <- W. apply nodup_app_one; assumption. }
        destruct (syncing s'); [discriminate|discriminate].
      * rewrite E1. split; [exact D|]. intros y Y. unfold request_of in E2. rewrite Y in E2. cbn [option_map] in E2.
        destruct (syncing s) as [z|]; [|discriminate]. destruct (P z eq_refl) as [P1 P2]. cbn [option_map] in E2. rewrite P1 in E2. destruct (sy_use_list y); [discriminate|].
        split; [reflexivity|]. injection E2 as -> -> ->. exact P2.
  - apply orb_false_iff in T as [T1 T2].
    pose proof (step_same _ _ _ _ _ _ _ _ _ S PSyncing T1) as E1. pose proof (step_same _ _ _ _ _ _ _ _ _ S PSynced T2) as E2. cbn [same] in E1, E2.
    unfold syncs_of in *. rewrite E1, E2. auto.
Qed.
End WithController.

(** From one host to the other: the data that a host gave to its controller reaches, whole,
    every host that is synchronised *)
Theorem sync_between aesA rngA cfgA hA sA nowA oA sA' stA outA aesB rngB cfgB hB sB nowB adv sid power pi data sB' stB outB :
  history aesA rngA cfgA hA sA -> step aesA rngA cfgA nowA sA oA = Ok sA' stA outA -> In (Sent (AirPeriodic adv sid power pi data)) outA ->
  history aesB rngB cfgB hB sB -> hears_syncs hB -> hears_answers hB -> hears_reports hB -> scanning sB -> pending hB = None ->
  step aesB rngB cfgB nowB sB (Receive (AirPeriodic adv sid power pi data)) = Ok sB' stB outB ->
  exists x a i, lookup (sets sA) x = Some a /\ periodic_on a = true /\ adv = adv_address a /\ sid = LeTypes.sid a
    /\ stored_data PeriodicData x hA = Some data /\ known_as aesB sB adv i
    /\ forall k, (In (k, train_of i sid) (syncs hB) -> whole 247 data (periodic_pieces k outB))
               /\ (~ In (k, train_of i sid) (syncs hB) -> periodic_pieces k outB = []).
Proof.
  intros HA SA IA HB L LA LR SC P SB. destruct (sent_stored _ _ _ _ _ _ _ _ _ _ _ HA SA IA) as (x & a & X1 & X2 & X3 & X4 & _ & X6).
  destruct (packet_received _ _ _ _ _ _ _ _ _ _ _ _ _ _ HB L LA LR SC SB) as (i & K & [(r & k & R & _)|(_ & _ & F)]); [congruence|].
  exists x, a, i. repeat (split; [assumption|]). exact F.
Qed.
