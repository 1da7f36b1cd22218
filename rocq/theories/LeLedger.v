(** Proofs for LeLedgerSpec.v. *)
From Verif Require Import Prelude Address Rpa Table LeTypes LeAdvertise LeLists LeScan LeInitiate LeHost LeHistory LeTac LeFrame LeStep LeSets LeOutputs LeInitProofs LeLedgerSpec.
From Verif Require Handles HandlesProofs.
Open Scope N_scope.

(** An output that says nothing about connections *)
Definition plain (x : output) : Prop :=
  match x with
  | Notified (EvConnectionComplete ADVERTISING_TIMEOUT _ _ _ _ _ _ | EvEnhancedConnectionComplete ADVERTISING_TIMEOUT _ _ _ _ _ _ _ _) => True
  | Notified (EvConnectionComplete _ _ _ _ _ _ _ | EvEnhancedConnectionComplete _ _ _ _ _ _ _ _ _ | EvDisconnection _ _) => False
  | _ => True
  end.

Local Ltac pl := exact Logic.I.

Section WithController.
Variable aes : list N -> list N -> list N.
Variable rng : N -> N.
Variable cfg : config.
Notation step := (step aes rng cfg).
Notation history := (history aes rng cfg).

Lemma send_scan_plain : forall now adv res b1 b2 b3 b4 x y s s' o,
  send_scan_request aes rng now adv res b1 b2 b3 b4 x y s = Some (s', o) -> Forall plain o.
Proof.
  unfold send_scan_request. intros now adv res b1 b2 b3 b4 x y s s' o H. destruct (_ || _) in H.
  - injection H as <- <-. constructor.
  - destruct (generate _ _ _ _ _) as [s1 r]. destruct (scanning_address _ _); [|discriminate]. injection H as <- <-.
    outs. pl.
Qed.

Lemma scan_legacy_plain : forall now adv tgt t d s s' o,
  scan_legacy_pdu aes rng now adv tgt t d s = Some (s', o) -> Forall plain o.
Proof.
  unfold scan_legacy_pdu. intros now adv tgt t d s s' o H.
  destruct (negb _) in H; [injection H as <- <-; constructor|].
  destruct (resolve aes adv s) as [s1 r] eqn:R.
  destruct (negb _) in H; [injection H as <- <-; constructor|].
  destruct (if match t with PDU_DIRECT => true | _ => false end then _ else _); [|injection H as <- <-; constructor].
  destruct (filter_duplicate _ _) as [s2 f] eqn:F.
  destruct (send_scan_request _ _ _ _ _ _ _ _ _ _ _ _) as [[s3 o3]|] eqn:S; [|discriminate].
  injection H as <- <-. apply send_scan_plain in S. outs; try exact S; pl.
Qed.

Lemma scan_extended_plain : forall now adv tgt c sc dir sid pw pr se pi d s s' o,
  scan_extended_pdu aes rng cfg now adv tgt c sc dir sid pw pr se pi d s = Some (s', o) -> Forall plain o.
Proof.
  unfold scan_extended_pdu. intros now adv tgt c sc dir sid pw pr se pi d s s' o H.
  do 4 (destruct (_ : bool) in H at 1; [injection H as <- <-; constructor|]).
  destruct (resolve aes adv s) as [s1 r] eqn:R.
  destruct (negb _) in H; [injection H as <- <-; constructor|].
  destruct (if dir then _ else _); [|injection H as <- <-; constructor].
  destruct (filter_duplicate _ _) as [s2 f] eqn:F.
  destruct (send_scan_request _ _ _ _ _ _ _ _ _ _ _ _) as [[s3 o3]|] eqn:S; [|discriminate].
  injection H as <- <-. apply send_scan_plain in S.
  apply Forall_app; split; [|exact S]. apply forall_if. intros B.
  apply Forall_forall. intros x IN. apply in_map_iff in IN as (f' & <- & _). pl.
Qed.

Lemma connect_to_plain : forall adv tgt d s s' o, connect_to aes rng adv tgt d s = Some (s', o) -> Forall plain o.
Proof.
  unfold connect_to. intros adv tgt d s s' o H.
  destruct (resolve aes adv s) as [s1 r]. do 3 (destruct (_ : bool) in H at 1; [injection H as <- <-; constructor|]).
  destruct (generate _ _ _ _ _) as [s2 r2]. destruct (initiating_address _ _); [|discriminate].
  injection H as <- <-. outs. pl.
Qed.

Lemma advertise_set_plain : forall s now a a' o, advertise_set s now a = Some (a', o) -> Forall plain o.
Proof.
  unfold advertise_set. intros s now a a' o H.
  destruct (set_timeout s now a) as [a1 o1] eqn:E1.
  destruct (set_limit s a1) as [a2 o2] eqn:E2.
  destruct (set_advertise now a2) as [[a3 o3]|] eqn:E3; [|discriminate].
  destruct (set_periodic now a3) as [a4 o4] eqn:E4. injection H as <- <-.
  apply Forall_app; split; [|apply Forall_app; split; [|apply Forall_app; split]].
  - unfold set_timeout in E1. destruct (timeout a); [|injection E1 as <- <-; constructor].
    destruct (_ && _) in E1; injection E1 as <- <-; outs; pl.
  - unfold set_limit in E2. destruct (_ && _ && _) in E2; injection E2 as <- <-; outs; pl.
  - unfold set_advertise in E3. destruct (_ && _) in E3; [|injection E3 as <- <-; constructor].
    destruct (legacy_pdus _); [destruct (set_legacy_pdu _); [|discriminate]|]; injection E3 as <- <-; outs; pl.
  - unfold set_periodic in E4. destruct (_ && _) in E4; injection E4 as <- <-; outs; pl.
Qed.

Lemma advertise_sets_plain : forall s now m m' o, advertise_sets s now m = Some (m', o) -> Forall plain o.
Proof.
  intros s now. induction m as [|[k a] m IH]; cbn [advertise_sets]; intros m' o H.
  - injection H as <- <-. constructor.
  - destruct (advertise_set s now a) as [[a1 o1]|] eqn:E; [|discriminate].
    destruct (advertise_sets s now m) as [[m1 o2]|] eqn:E2; [|discriminate]. injection H as <- <-.
    apply Forall_app. split; [exact (advertise_set_plain _ _ _ _ _ E)|exact (IH _ _ eq_refl)].
Qed.

Lemma tick_plain : forall now s s' st out, step now s Tick = Ok s' st out -> Forall plain out.
Proof.
  intros now s s' st out H. cbn [LeHost.step] in H. unfold tick, le_advertising in H.
  destruct (legacy_timeout now s) as [s1 o1] eqn:E1.
  destruct (legacy_advertise now s1) as [s2 o2] eqn:E2.
  destruct (advertise_sets s2 now (sets s2)) as [[m o3]|] eqn:E3; [|discriminate].
  destruct (le_scanning now _) as [s4 o4] eqn:E4. injection H as <- <- <-.
  apply advertise_sets_plain in E3.
  apply Forall_app; split; [apply Forall_app; split; [|apply Forall_app; split]|].
  - unfold legacy_timeout in E1. destruct (l_timeout _); [destruct (_ && _) in E1|]; injection E1 as <- <-; outs; pl.
  - unfold legacy_advertise in E2. destruct (_ && _) in E2; [destruct (legacy_pdu_of _)|]; injection E2 as <- <-; outs; pl.
  - exact E3.
  - unfold le_scanning in E4. destruct (negb _) in E4; [injection E4 as <- <-; constructor|].
    destruct (_ && _) in E4; injection E4 as <- <-; outs; pl.
Qed.

(** Steps that are not about connections say nothing about them *)
Lemma step_plain : forall now s o s' st out, step now s o = Ok s' st out -> concerns_links o = false -> Forall plain out.
Proof.
  intros now s o s' st out H C. destruct o as [c|p|]; [| |exact (tick_plain _ _ _ _ _ H)].
  - cbn [LeHost.step] in H.
    assert (out = [] -> Forall plain out) as NIL by (intros ->; constructor).
    destruct c; try discriminate C; cbn [run_command] in H; unfold quiet in H;
      try (ok H; apply NIL; reflexivity); try (match type of H with (let '(_, _) := ?r in _) = _ => destruct r end; ok H; apply NIL; reflexivity).
    + unfold reset, loud in H. ok H. apply Forall_forall. intros x IN. apply in_map_iff in IN as (kv & <- & _). pl.
    + destruct (set_ext_enable _ _ _ _ _ _); [|discriminate]. ok H. constructor.
    + unfold cancel_sync, loud in H. destruct (is_some _); ok H; outs; pl.
  - cbn [LeHost.step] in H. destruct p; try discriminate C; cbn [receive] in H.
    + unfold of_effect, receive_legacy_pdu in H. destruct (then_also _ _) as [s1 o1| |] eqn:E; try discriminate. ok H.
      apply then_also_inv in E as (s2 & o2 & o3 & E1 & E2 & ->).
      apply Forall_app; split; [exact (scan_legacy_plain _ _ _ _ _ _ _ _ E1)|]. unfold connect_legacy_pdu in E2.
      do 2 (destruct (_ : bool) in E2 at 1; [injection E2 as <- <-; constructor|]).
      exact (connect_to_plain _ _ _ _ _ _ E2).
    + unfold of_effect, receive_extended_pdu in H. destruct (then_also _ _) as [s1 o1| |] eqn:E; try discriminate. ok H.
      apply then_also_inv in E as (s2 & o2 & o3 & E1 & E2 & ->).
      apply Forall_app; split; [eapply scan_extended_plain; exact E1|]. unfold connect_extended_pdu in E2.
      do 3 (destruct (_ : bool) in E2 at 1; [injection E2 as <- <-; constructor|]).
      exact (connect_to_plain _ _ _ _ _ _ E2).
    + unfold of_pair, receive_periodic in H.
      destruct (negb _) in H; [ok H; constructor|]. destruct (negb _) in H; [ok H; constructor|].
      destruct (resolve aes adv s) as [s1 r] eqn:R.
      match type of H with context [match ?m with Some _ => _ | None => _ end] => destruct m in H end.
      * ok H. outs; pl.
      * ok H. apply forall_if. intros B. apply Forall_forall. intros x IN. apply in_flat_map in IN as (kv & _ & IN).
        destruct (synced_match _ _ _ _); [|contradiction]. apply in_map_iff in IN as (f & <- & _). pl.
    + unfold of_pair, receive_scan in H. destruct (resolve aes scanner s) as [s1 r]. ok H.
      apply Forall_app; split.
      * unfold legacy_scan_request. outs; pl.
      * apply Forall_forall. intros x IN. apply in_flat_map in IN as (kv & _ & IN).
        unfold set_scan_request_pdu in IN. destruct (_ && _ && _) in IN; [|contradiction]. destruct IN as [<-|[]]. pl.
    + unfold of_pair, receive_scan_response in H. destruct (negb _) in H; [ok H; constructor|].
      destruct (pending_find _ _) as [q|]; [|ok H; constructor].
      destruct (resolve aes adv s) as [s1 r] eqn:R.
      destruct (filter_duplicate _ _) as [s2 f] eqn:F.
      ok H. apply Forall_app; split; apply forall_if; intros B; [outs; pl|].
      apply Forall_forall. intros x IN. apply in_map_iff in IN as (f' & <- & _). pl.
Qed.

Lemma plain_note o : Forall plain o -> forall l, fold_left note (notified o) l = l.
Proof.
  induction 1 as [|x o P F IH]; intros l; [reflexivity|]. cbn [notified flat_map]. rewrite fold_left_app. fold (notified o).
  destruct x as [p|e]; cbn [fold_left]; [apply IH|]. rewrite <- (IH l) at 2. f_equal.
  destruct e; try reflexivity; try contradiction; destruct st; try reflexivity; contradiction.
Qed.
Definition told (o : list output) : N := fold_right (fun e n => answer e + n) 0 (notified o).
Lemma plain_told o : Forall plain o -> told o = 0.
Proof.
  induction 1 as [|x o P F IH]; [reflexivity|]. unfold told in *. cbn [notified flat_map]. rewrite fold_right_app. fold (notified o). rewrite IH.
  destruct x as [p|e]; cbn [fold_right]; [reflexivity|].
  destruct e; try reflexivity; try contradiction; destruct st; try reflexivity; contradiction.
Qed.
Lemma note_app a b l : fold_left note (notified (a ++ b)) l = fold_left note (notified b) (fold_left note (notified a) l).
Proof. unfold notified. rewrite flat_map_app. apply fold_left_app. Qed.
Lemma told_app a b : told (a ++ b) = told a + told b.
Proof.
  induction a as [|x a IH]; [reflexivity|]. unfold told in *. cbn [app notified flat_map]. fold (notified (a ++ b)). fold (notified a).
  rewrite !fold_right_app, IH. destruct x as [p|e]; cbn [fold_right]; lia.
Qed.

Definition link_of (kv : N * le_conn) : link :=
  Link (fst kv) (c_central (snd kv)) (awt_addr (c_peer (snd kv))) (c_interval (snd kv)) (c_latency (snd kv)) (c_supervision (snd kv)).

(** ** The masks *)

Lemma masks_of h s : history h s -> event_mask s = event_mask_of h /\ le_mask s = le_mask_of h.
Proof.
  induction 1 as [a|h s now o s' st out H [I1 I2] S]; [split; reflexivity|].
  destruct (touches o PMasks) eqn:T.
  - destruct o as [c|p|]; try discriminate; [destruct c; try discriminate; unfold_step S; ok S; le_simpl; cbn [event_mask_of le_mask_of what]; auto|destruct p; discriminate].
  - pose proof (step_same _ _ _ _ _ _ _ _ _ S PMasks T) as E. cbn [same] in E. destruct E as (E1 & _ & E3). rewrite E1, E3, I1, I2.
    destruct o as [c|p|]; [destruct c; try discriminate T; split; reflexivity|split; reflexivity|split; reflexivity].
Qed.

Lemma listening_masks h s : history h s -> listening h ->
  event_unmasked s 5 = true /\ (le_event_unmasked s 1 = true \/ le_event_unmasked s 10 = true).
Proof.
  intros H (L1 & L2 & L3). destruct (masks_of _ _ H) as [M1 M2]. unfold le_event_unmasked, event_unmasked.
  change (5 <=? 64) with true. change (62 <=? 64) with true. cbv beta iota.
  change (5 - 1) with 4. change (62 - 1) with 61. change (1 - 1) with 0. change (10 - 1) with 9.
  rewrite M1, M2, L1, L2. cbn [andb]. split; [reflexivity|exact L3].
Qed.

(** ** What a step does to the connections and to the attempt *)

(** The handles of the connections are distinct and in their range *)
Definition handles_fine (m : table le_conn) (last : N) : Prop := HandlesProofs.tinv Handles.kLeAclRangeStart Handles.kLeAclRangeEnd m last.
(** The connections become [m], and the attempt's flag becomes [b] *)
Definition becomes (s s' : le) (m : table le_conn) (b : bool) : Prop :=
  conns s' = m /\ init_enabled (init s') = b /\ (handles_fine (conns s) (last_handle s) -> handles_fine (conns s') (last_handle s')).

Lemma same_links now s o s' st out : step now s o = Ok s' st out -> concerns_links o = false ->
  (forall c, o = Command c -> match c with Reset | CreateConnection _ _ _ _ | ExtCreateConnection _ _ _ _ _ => False | _ => True end) ->
  becomes s s' (conns s) (init_enabled (init s)).
Proof.
  intros S C N. cut (conns s' = conns s /\ last_handle s' = last_handle s /\ init_enabled (init s') = init_enabled (init s)).
  { intros (E1 & E2 & E3). split; [exact E1|]. split; [exact E3|]. now rewrite E1, E2. }
  apply and_assoc. split.
  - destruct (touches o PConns) eqn:T.
    + destruct o as [c|p|]; [|destruct p|]; try discriminate. destruct c; try discriminate. destruct (N _ eq_refl).
    + pose proof (step_same _ _ _ _ _ _ _ _ _ S PConns T) as E. cbn [same] in E. exact E.
  - destruct (touches o PInit) eqn:T.
    + destruct o as [c|p|]; [|destruct p|]; try discriminate.
      * specialize (N _ eq_refl). destruct c; try discriminate; destruct N.
      * cbn [LeHost.step receive] in S. unfold of_effect, receive_legacy_pdu in S.
        destruct (then_also _ _) as [s1 o1| |] eqn:E; try discriminate. ok S.
        apply then_also_inv in E; destruct E as (s2 & o2 & o3 & E1 & E2 & ->). frames. le_simpl. reflexivity.
      * cbn [LeHost.step receive] in S. unfold of_effect, receive_extended_pdu in S.
        destruct (then_also _ _) as [s1 o1| |] eqn:E; try discriminate. ok S.
        apply then_also_inv in E; destruct E as (s2 & o2 & o3 & E1 & E2 & ->). frames. le_simpl. reflexivity.
    + pose proof (step_same _ _ _ _ _ _ _ _ _ S PInit T) as E. cbn [same] in E. congruence.
Qed.

(** Only a private address has another identity *)
Definition resolvable (peer resolved : address_with_type) : Prop := awt_eqb resolved no_address = false -> awt_addr peer <> empty_address.

Lemma rpa_not_empty a : is_rpa a = true -> awt_addr a <> empty_address.
Proof. unfold is_rpa. intros R E. rewrite E in R. apply andb_true_iff in R as [_ R]. discriminate R. Qed.

Lemma awt_eqb_same a : awt_eqb a a = true.
Proof. apply awt_eqb_eq. reflexivity. Qed.

Lemma resolve_resolvable a s s' r : resolve aes a s = (s', r) -> resolvable a (resolved_or_none r a).
Proof.
  unfold resolve, resolve_private_address, resolvable, resolved_or_none. destruct (is_rpa a) eqn:R; cbn [negb].
  - intros _ _. exact (rpa_not_empty _ R).
  - intros [= <- <-]. rewrite awt_eqb_same. rewrite awt_eqb_same. discriminate.
Qed.

Lemma handle_connection_becomes peer resolved own central i lat sup cs s s' h o :
  handle_connection peer resolved own central i lat sup cs s = Some (s', h, o) ->
  becomes s s' ((h, LeConn peer own resolved central i lat sup) :: conns s) (init_enabled (init s)) /\
  (le_event_unmasked s 1 = true \/ le_event_unmasked s 10 = true -> resolvable peer resolved ->
   (forall l, fold_left note (notified o) l = Link h central (awt_addr peer) i lat sup :: l) /\ told o = (if central then 1 else 0)).
Proof.
  intros H. pose proof (handle_connection_frame _ _ _ _ _ _ _ _ _ _ _ _ H) as (last & ia & -> & G & _).
  split; [split; [|split]; le_simpl; [reflexivity|reflexivity|intros T; exact (HandlesProofs.tinv_add _ _ eq_refl _ _ _ _ _ T G)]|].
  unfold handle_connection in H. rewrite G in H. injection H as _ <-. 
  intros U RS. change (le_event_unmasked (with_conns _ _) ?c) with (le_event_unmasked s c).
  split.
  - intros l. rewrite note_app. destruct (le_event_unmasked s 10) eqn:U10.
    + replace (Link h central (awt_addr peer) i lat sup) with
        (Link h central (if list_eqb (if negb (awt_eqb resolved no_address) then awt_addr peer else empty_address) empty_address
                         then awt_addr (if negb (awt_eqb resolved no_address) then resolved else peer)
                         else (if negb (awt_eqb resolved no_address) then awt_addr peer else empty_address)) i lat sup).
      { cbn [notified flat_map app fold_left note]. destruct (cs && _); reflexivity. }
      f_equal. unfold resolvable in RS. destruct (awt_eqb resolved no_address); cbn [negb]; [reflexivity|].
      destruct (list_eqb (awt_addr peer) empty_address) eqn:Z; [|reflexivity]. apply list_eqb_eq in Z. destruct (RS eq_refl Z).
    + destruct U as [U|U]; [|congruence]. rewrite U. cbn [notified flat_map app fold_left note]. destruct (cs && _); reflexivity.
  - rewrite told_app. destruct (le_event_unmasked s 10) eqn:U10.
    + destruct (cs && _); destruct central; reflexivity.
    + destruct U as [U|U]; [|congruence]. rewrite U. destruct (cs && _); destruct central; reflexivity.
Qed.

Lemma erase_links m h : map link_of (erase m h) = List.filter (fun k => negb (k_handle k =? h)) (map link_of m).
Proof.
  induction m as [|[k c] m IH]; [reflexivity|]. unfold erase in *. cbn [List.filter map fst].
  change (k_handle (link_of (k, c))) with k. destruct (k =? h); cbn [negb map]; now rewrite IH.
Qed.

Definition flag (b : bool) : N := if b then 1 else 0.

(** What a step does, seen by a host that gets the events *)
Definition seen (s s' : le) (out : list output) : Prop :=
  links_of s' = fold_left note (notified out) (links_of s) /\
  (handles_fine (conns s) (last_handle s) -> handles_fine (conns s') (last_handle s')).

Lemma seen_same s s' out : becomes s s' (conns s) (init_enabled (init s)) -> Forall plain out ->
  seen s s' out /\ flag (init_enabled (init s)) = told out + flag (init_enabled (init s')).
Proof.
  intros (B1 & B2 & B3) F. split.
  - split; [|exact B3]. unfold links_of. now rewrite (plain_note _ F), B1.
  - now rewrite (plain_told _ F), B2.
Qed.

Lemma same_becomes s s' : conns s' = conns s -> last_handle s' = last_handle s -> init_enabled (init s') = init_enabled (init s) ->
  becomes s s' (conns s) (init_enabled (init s)).
Proof. intros E1 E2 E3. split; [exact E1|]. split; [exact E3|]. now rewrite E1, E2. Qed.

Lemma erased s s' h r out : conns s' = erase (conns s) h -> last_handle s' = last_handle s -> init s' = init s ->
  notified out = [EvDisconnection h r] -> seen s s' out /\ flag (init_enabled (init s)) = told out + flag (init_enabled (init s')).
Proof.
  intros E1 E2 E3 E4. split; [split|].
  - unfold links_of. fold link_of. rewrite E4, E1. apply erase_links.
  - rewrite E1, E2. apply HandlesProofs.tinv_erase.
  - unfold told. now rewrite E4, E3.
Qed.

Lemma connected peer resolved own central i lat sup cs s s1 h o :
  handle_connection peer resolved own central i lat sup cs s = Some (s1, h, o) ->
  le_event_unmasked s 1 = true \/ le_event_unmasked s 10 = true -> resolvable peer resolved -> forall s' o2,
  conns s' = conns s1 -> last_handle s' = last_handle s1 -> Forall plain o2 ->
  seen s s' (o ++ o2) /\ told (o ++ o2) = flag central /\ init_enabled (init s1) = init_enabled (init s).
Proof.
  intros H U RS s' o2 E1 E2 F. destruct (handle_connection_becomes _ _ _ _ _ _ _ _ _ _ _ _ H) as ((B1 & B2 & B3) & K). destruct (K U RS) as [K1 K2].
  split; [split|split].
  - unfold links_of. fold link_of. rewrite note_app, K1, (plain_note _ F), E1, B1. reflexivity.
  - now rewrite E1, E2.
  - rewrite told_app, K2, (plain_told _ F). destruct central; reflexivity.
  - exact B2.
Qed.

Lemma set_connect_seen m : forall i adv x y z s s' o,
  sets_connect_request aes m i adv x y z s = Next s' o -> le_event_unmasked s 1 = true \/ le_event_unmasked s 10 = true ->
  seen s s' o /\ flag (init_enabled (init s)) = told o + flag (init_enabled (init s')).
Proof.
  induction m as [|[h a] m IH]; cbn [sets_connect_request]; intros i adv x y z s s' o H U.
  - injection H as <- <-. apply seen_same; [now apply same_becomes|constructor].
  - destruct (set_connect_request aes h a i adv x y z s) as [e|s1] eqn:E.
    + subst e. unfold set_connect_request in E. destruct (negb _) in E; [discriminate|].
      destruct (resolve aes i s) as [s1 r] eqn:R. pose proof (resolve_resolvable _ _ _ _ R) as RS. apply resolve_frame in R as (l & -> & _).
      destruct (negb _) in E; [discriminate|]. injection E as E.
      destruct (handle_connection _ _ _ _ _ _ _ _ _) as [[[s2 c] o2]|] eqn:HC in E; [|discriminate].
      injection E as <- <-.
      destruct (connected _ _ _ _ _ _ _ _ _ _ _ _ HC U RS s2 ([Sent (AirConnectComplete i adv x y z)]
         ++ (if le_event_unmasked s2 18 then [Notified (EvSetTerminated SUCCESS (set_handle a) c (num_events a))] else [])) eq_refl eq_refl) as (S1 & S2 & S3).
      { apply Forall_app. split; [repeat constructor|]. destruct (le_event_unmasked s2 18); repeat constructor. }
      split; [exact S1|]. match goal with |- _ = ?a + _ => replace a with 0 by (symmetry; exact S2) end. now rewrite S3.
    + assert (exists l, s1 = with_resolving l s) as [l ->].
      { destruct (set_connect_request_frame _ _ _ _ _ _ _ _ _ _ E) as (l & -> & _). now exists l. }
      exact (IH _ _ _ _ _ _ _ _ H U).
Qed.

Lemma refused_or_started now s c s' st out : step now s (Command c) = Ok s' st out ->
  match c with CreateConnection _ _ _ _ | ExtCreateConnection _ _ _ _ _ => True | _ => False end ->
  seen s s' out /\ told out = 0 /\
  ((st = Some SUCCESS /\ init_enabled (init s) = false /\ init_enabled (init s') = true) \/ (st <> Some SUCCESS /\ init_enabled (init s') = init_enabled (init s))).
Proof.
  intros S C. assert (Forall plain out) as F by (apply (step_plain _ _ _ _ _ _ S); destruct c; try destruct C; reflexivity).
  assert (seen s s' out) as B.
  { assert (touches (Command c) PConns = false) as T by (destruct c; try destruct C; reflexivity).
    destruct (step_same _ _ _ _ _ _ _ _ _ S PConns T) as [E1 E2]. split; [|now rewrite E1, E2]. unfold links_of. now rewrite (plain_note _ F), E1. }
  split; [exact B|]. split; [exact (plain_told _ F)|]. clear B F. destruct c; try destruct C; cbn [LeHost.step run_command] in S.
  - unfold quiet, create_connection, select_legacy in S.
    destruct (extended_used s) eqn:EU; [ok S; right; split; [discriminate|reflexivity]|].
    le_simpl_in S. destruct (init_enabled (init s)) eqn:IE; [ok S; right; split; [discriminate|exact IE]|].
    destruct (check_connection p) as [x|] eqn:CC.
    { ok S. right. split; [|exact IE]. intros [= ->]. apply (check_connections_status [p] SUCCESS); [cbn [check_connections]; now rewrite CC|reflexivity]. }
    destruct (check_own _ _ _ _ _ _) as [s1 ok1] eqn:O. apply check_own_init in O. le_simpl_in O.
    destruct ok1; cbn [negb] in S; ok S; [left; auto|right; split; [discriminate|congruence]].
  - unfold quiet, ext_create_connection, select_extended in S.
    destruct (legacy_used s) eqn:EU; [ok S; right; split; [discriminate|reflexivity]|].
    le_simpl_in S. destruct (init_enabled (init s)) eqn:IE; [ok S; right; split; [discriminate|exact IE]|].
    do 3 (destruct (_ : bool) in S at 1; [ok S; right; split; [discriminate|exact IE]|]).
    destruct (check_connections l) as [x|] eqn:CC.
    { ok S. right. split; [|exact IE]. intros [= ->]. exact (check_connections_status _ _ CC eq_refl). }
    destruct (check_own _ _ _ _ _ _) as [s1 ok1] eqn:O. apply check_own_init in O. le_simpl_in O.
    destruct ok1; cbn [negb] in S; ok S; [left; auto|right; split; [discriminate|congruence]].
Qed.

(** ** Every step *)

Definition is_complete_response (o : op) : bool := match o with Receive (AirConnectComplete _ _ _ _ _) => true | _ => false end.
Definition is_attempt (o : op) : bool := match o with Command (CreateConnection _ _ _ _ | ExtCreateConnection _ _ _ _ _) => true | _ => false end.

Lemma step_seen now s o s' st out : step now s o = Ok s' st out -> is_reset o = false ->
  (concerns_links o = true -> event_unmasked s 5 = true /\ (le_event_unmasked s 1 = true \/ le_event_unmasked s 10 = true)) ->
  seen s s' out /\
  (is_attempt o = false -> (is_complete_response o = true -> init_enabled (init s) = true) -> flag (init_enabled (init s)) = told out + flag (init_enabled (init s'))).
Proof.
  intros S R U. destruct (is_attempt o) eqn:A.
  { destruct o as [c|p|]; try discriminate. destruct (refused_or_started _ _ _ _ _ _ S) as [B _]; [destruct c; try discriminate A; exact Logic.I|].
    split; [exact B|discriminate]. }
  destruct (concerns_links o) eqn:C.
  2:{ destruct (seen_same s s' out) as [B1 B2]; [|exact (step_plain _ _ _ _ _ _ S C)|split; [exact B1|intros _ _; exact B2]].
      apply (same_links _ _ _ _ _ _ S C). intros c ->. destruct c; try exact Logic.I; discriminate. }
  destruct (U eq_refl) as [U5 U1]. clear U R.
  destruct o as [c|p|]; try discriminate; cbn [LeHost.step] in S.
  - destruct c; try discriminate; cbn [run_command] in S; unfold loud in S.
    + unfold cancel_connection in S. destruct (init_enabled (init s)) eqn:IE; cbn [negb] in S.
      * ok S. split; [|intros _ _].
        -- split; [|auto]. unfold links_of. le_simpl. destruct (le_event_unmasked s 10); [reflexivity|]. destruct (le_event_unmasked s 1); reflexivity.
        -- le_simpl. destruct (le_event_unmasked s 10); [reflexivity|]. destruct U1 as [-> |U1]; [reflexivity|discriminate].
      * ok S. destruct (seen_same s s []) as [B1 B2]; [now apply same_becomes|constructor|]. rewrite IE in B2. split; [exact B1|intros _ _; now rewrite IE].
    + unfold disconnect in S. destruct (lookup (conns s) h) as [c|].
      * ok S. destruct (erased s (with_conns (erase (conns s) h) s) h creason
          (Sent (AirDisconnect (awt_addr (c_own c)) (awt_addr (c_peer c)) reason) :: disconnection_event s h creason)) as [B1 B2]; try reflexivity.
        { unfold disconnection_event. now rewrite U5. }
        split; [exact B1|intros _ _; exact B2].
      * ok S. destruct (seen_same s s []) as [B1 B2]; [now apply same_becomes|constructor|]. split; [exact B1|intros _ _; exact B2].
  - destruct p; try discriminate; cbn [receive] in S.
    + unfold of_effect in S. destruct (receive_connect _ _ _ _ _ _ _) as [s1 o1| |] eqn:E; try discriminate. ok S.
      unfold receive_connect in E. destruct (legacy_connect_request _ _ _ _ _ _ _) as [e|s2] eqn:L.
      * subst e. unfold legacy_connect_request in L. destruct (negb _) in L; [discriminate|].
        destruct (resolve aes initiator s) as [s3 r] eqn:R. pose proof (resolve_resolvable _ _ _ _ R) as RS. apply resolve_frame in R as (l & -> & _).
        destruct (negb _) in L; [discriminate|]. injection L as L.
        destruct (handle_connection _ _ _ _ _ _ _ _ _) as [[[s4 c] o2]|] eqn:HC in L; [|discriminate].
        injection L as <- <-.
        destruct (connected _ _ _ _ _ _ _ _ _ _ _ _ HC U1 RS (with_legacy (with_l_enabled false (legacy s4)) s4)
          [Sent (AirConnectComplete initiator adv interval latency supervision)] eq_refl eq_refl) as (S1 & S2 & S3); [repeat constructor|].
        split; [exact S1|intros _ _]. rewrite S2. le_simpl. rewrite S3. reflexivity.
      * assert (exists l, s2 = with_resolving l s) as [l ->].
        { unfold legacy_connect_request in L. destruct (negb _) in L; [injection L as <-; exists (resolving s); destruct s; reflexivity|].
          destruct (resolve aes initiator s) as [s3 r] eqn:R. apply resolve_frame in R as (l & -> & _).
          destruct (negb _) in L; [|discriminate]. injection L as <-. now exists l. }
        destruct (set_connect_seen _ _ _ _ _ _ _ _ _ E U1) as [B1 B2]. split; [exact B1|intros _ _; exact B2].
    + unfold of_effect in S. destruct (receive_connect_complete _ _ _ _ _ _ _) as [s1 o1| |] eqn:E; try discriminate. ok S.
      unfold receive_connect_complete in E. destruct (_ && _) in E.
      { injection E as <- <-. destruct (seen_same s s []) as [B1 B2]; [now apply same_becomes|constructor|]. split; [exact B1|intros _ _; exact B2]. }
      destruct (if is_rpa adv then _ else _) as [s2 r] eqn:R.
      assert (resolvable adv r) as RS.
      { unfold resolvable. destruct (is_rpa adv) eqn:RA; [intros _; exact (rpa_not_empty _ RA)|]. injection R as <- <-. rewrite awt_eqb_same. discriminate. }
      assert (exists l, s2 = with_resolving l s) as [l ->].
      { destruct (is_rpa adv); [destruct (resolve_private_address _ _ _ _) as [l x]; injection R as <- <-; now exists l|].
        injection R as <- <-. exists (resolving s). destruct s; reflexivity. }
      destruct (handle_connection _ _ _ _ _ _ _ _ _) as [[[s4 c] o2]|] eqn:HC in E; [|discriminate]. injection E as <- <-.
      destruct (connected _ _ _ _ _ _ _ _ _ _ _ _ HC U1 RS (with_init (with_init_pending None (with_init_enabled false (init s4))) s4) [] eq_refl eq_refl) as (S1 & S2 & S3); [constructor|].
      rewrite app_nil_r in *. split; [exact S1|]. intros _ W. rewrite S2, (W eq_refl). reflexivity.
    + unfold of_pair, receive_disconnect in S. destruct (find_connection _ _ _) as [h|].
      * ok S. destruct (erased s (with_conns (erase (conns s) h) s) h reason (disconnection_event s h reason)) as [B1 B2]; try reflexivity.
        { unfold disconnection_event. now rewrite U5. }
        split; [exact B1|intros _ _; exact B2].
      * ok S. destruct (seen_same s s []) as [B1 B2]; [now apply same_becomes|constructor|]. split; [exact B1|intros _ _; exact B2].
Qed.

(** ** Histories *)

Theorem ledger h s : history h s -> hears h -> links_of s = links h.
Proof.
  induction 1 as [a|h s now o s' st out H IH S]; [reflexivity|]. intros [HR HL]. specialize (IH HR).
  destruct (is_reset o) eqn:R.
  - destruct o as [[]| |]; try discriminate. cbn [LeHost.step run_command] in S. unfold reset, loud in S. ok S. reflexivity.
  - destruct (step_seen _ _ _ _ _ _ S R) as [[B _] _]; [intros C; apply (listening_masks _ _ H), HL, C|].
    rewrite B, IH. destruct o as [[]| |]; try discriminate; reflexivity.
Qed.

Theorem handles_distinct h s : history h s -> hears h -> NoDup (map k_handle (links h)).
Proof.
  intros H HR. rewrite <- (ledger _ _ H HR).
  assert (handles_fine (conns s) (last_handle s)) as T.
  { induction H as [a|h s now o s' st out H IH S].
    - constructor; [constructor|intros ? []|]. vm_compute. split; discriminate.
    - destruct (is_reset o) eqn:R.
      { destruct o as [[]| |]; try discriminate. cbn [LeHost.step run_command] in S. unfold reset, loud in S. ok S.
        constructor; [constructor|intros ? []|]. vm_compute. split; discriminate. }
      destruct HR as [HR HL]. apply (step_seen _ _ _ _ _ _ S R); [intros C; apply (listening_masks _ _ H), HL, C|exact (IH HR)]. }
  pose proof (HandlesProofs.tinv_nodup _ _ _ _ T) as ND. unfold links_of. rewrite map_map. exact ND.
Qed.

Lemma told_answers now o st out h : is_reset o = false -> answers (Entry now o st out :: h) = told out + answers h.
Proof. intros R. destruct o as [[]| |]; try discriminate; reflexivity. Qed.

Theorem counted h s : history h s -> hears h -> in_time h ->
  attempts h = answers h + (if init_enabled (init s) then 1 else 0).
Proof.
  fold (flag (init_enabled (init s))).
  induction 1 as [a|h s now o s' st out H IH S]; [reflexivity|]. intros [HR HL] [IT IW]. specialize (IH HR IT). cbn [what] in *.
  destruct (is_reset o) eqn:R.
  - destruct o as [[]| |]; try discriminate. cbn [LeHost.step run_command] in S. unfold reset, loud in S. ok S. reflexivity.
  - rewrite told_answers by exact R. destruct (is_attempt o) eqn:A.
    + destruct o as [c|p|]; try discriminate.
      destruct (refused_or_started _ _ _ _ _ _ S) as (_ & E & [(-> & E1 & E2)|(N & E1)]); [destruct c; try discriminate A; exact Logic.I| |].
      * rewrite E, E2. rewrite E1 in IH. destruct c; try discriminate A; cbn [attempts what status_of]; rewrite IH; unfold flag; lia.
      * rewrite E, E1, <- (N.add_assoc 0), N.add_0_l, <- IH. destruct c; try discriminate A; cbn [attempts what status_of]; destruct st as [[]|]; try reflexivity; destruct (N eq_refl).
    + destruct (step_seen _ _ _ _ _ _ S R) as [_ B]; [intros C; apply (listening_masks _ _ H), HL, C|].
      specialize (B A). assert (is_complete_response o = true -> init_enabled (init s) = true) as W.
      { intros X. destruct o as [|[]|]; try discriminate. specialize (IW _ _ _ _ _ eq_refl). unfold waiting in IW. apply N.ltb_lt in IW.
        destruct (init_enabled (init s)); [reflexivity|]. unfold flag in IH. lia. }
      specialize (B W). transitivity (attempts h); [destruct o as [[]| |]; try discriminate; reflexivity|]. rewrite IH, B. lia.
Qed.

Corollary waits h s : history h s -> hears h -> in_time h -> waiting h = init_enabled (init s).
Proof.
  intros H HR IT. unfold waiting. rewrite (counted _ _ H HR IT). destruct (init_enabled (init s)); [apply N.ltb_lt|apply N.ltb_ge]; lia.
Qed.

(** ** What the host can do *)

Theorem one_at_a_time h s : history h s -> hears h -> in_time h -> waiting h = true ->
  forall now c s' st out, match c with CreateConnection _ _ _ _ | ExtCreateConnection _ _ _ _ _ => True | _ => False end ->
  step now s (Command c) = Ok s' st out -> st = Some COMMAND_DISALLOWED /\ out = [].
Proof.
  intros H HR IT W now c s' st out C S. rewrite (waits _ _ H HR IT) in W. destruct c; try destruct C; cbn [LeHost.step run_command] in S.
  - unfold quiet, create_connection, select_legacy in S. destruct (extended_used s); [ok S; auto|]. le_simpl_in S. rewrite W in S. ok S. auto.
  - unfold quiet, ext_create_connection, select_extended in S. destruct (legacy_used s); [ok S; auto|]. le_simpl_in S. rewrite W in S. ok S. auto.
Qed.

Theorem cancelling h s : history h s -> hears h -> in_time h ->
  forall now, listening h -> exists s' out, step now s (Command CancelConnection) = Ok s' (Some (if waiting h then SUCCESS else COMMAND_DISALLOWED)) out /\
    notified out = (if waiting h then [if N.testbit (le_mask_of h) 9
        then EvEnhancedConnectionComplete UNKNOWN_CONNECTION 0 true no_address empty_address empty_address 0 0 0
        else EvConnectionComplete UNKNOWN_CONNECTION 0 true no_address 0 0 0] else []).
Proof.
  intros H HR IT now L. rewrite (waits _ _ H HR IT). cbn [LeHost.step run_command]. unfold loud, cancel_connection.
  destruct (listening_masks _ _ H L) as [_ U]. destruct (masks_of _ _ H) as [M1 M2]. destruct L as (_ & L61 & _).
  assert (le_event_unmasked s 10 = N.testbit (le_mask_of h) 9) as E.
  { unfold le_event_unmasked, event_unmasked. change (62 <=? 64) with true. cbv iota. change (62 - 1) with 61. change (10 - 1) with 9. now rewrite M1, M2, L61. }
  destruct (init_enabled (init s)); cbn [negb]; eexists _, _; (split; [reflexivity|]); [|reflexivity].
  rewrite E in *. destruct (N.testbit (le_mask_of h) 9); [reflexivity|]. destruct U as [-> |]; [reflexivity|discriminate].
Qed.

(** Disconnect works on the connections the host knows, and on no other *)
Theorem disconnecting h s : history h s -> hears h -> listening h -> forall now hd r cr s' st out,
  step now s (Command (Disconnect hd r cr)) = Ok s' st out ->
  (In hd (map k_handle (links h)) -> st = Some SUCCESS /\ notified out = [EvDisconnection hd cr]) /\
  (~ In hd (map k_handle (links h)) -> st = Some UNKNOWN_CONNECTION /\ out = [] /\ s' = s).
Proof.
  intros H HR L now hd r cr s' st out S. rewrite <- (ledger _ _ H HR).
  assert (map k_handle (links_of s) = keys (conns s)) as K by (unfold links_of; rewrite map_map; reflexivity).
  rewrite K. destruct (listening_masks _ _ H L) as [U _].
  cbn [LeHost.step run_command] in S. unfold loud, disconnect in S. destruct (lookup (conns s) hd) as [c|] eqn:E; ok S.
  - split; [|intros N; destruct N; exact (lookup_in _ _ _ E)]. intros _. split; [reflexivity|].
    unfold disconnection_event. rewrite U. reflexivity.
  - apply lookup_none in E. split; [contradiction|auto].
Qed.

End WithController.
