(** Properties of an LE connection seen from both of its ends: C33, C34, C47, C48, C49. *)
From Verif Require Import Prelude LeLink LeLinkSpec LeLinkProofs LeLinkMore LeLinkPhy LeLinkWitness LeLinkReach.
Open Scope N_scope.

Theorem C33_parameters_agree_partial : forall c p i lat tmo h s, history (connected c p i lat tmo) h s -> all_in_step h -> up (per s) = true -> to_per s = [] -> cp (per s) = cp (cen s).
Proof. exact params_equal. Qed.
Print Assumptions C33_parameters_agree_partial.

Theorem C33_agreement_witness : exists h s, history start h s /\ all_in_step h /\ up (per s) = true /\ to_per s = [] /\ factor (cp (per s)) = 4 /\ latency (cp (per s)) = 1 /\ timeout (cp (cen s)) = 450.
Proof. exact subrated. Qed.
Print Assumptions C33_agreement_witness.

Theorem C33_accepted_within_bounds_partial : forall c p i lat tmo h s m fmin fmax l cont t rest,
  1 <= sub_min (s_subrate c) <= sub_max (s_subrate c) /\ sub_max (s_subrate c) <= 500 -> history (connected c p i lat tmo) h s -> up (cen s) = true -> to_cen s = SubrateReq fmin fmax l cont t :: rest ->
  let a := acceptable (cen s) in
  exists s' ev, step s (Deliver Central m) = Some (s', SUCCESS, ev) /\
  ((cp (cen s') = cp (cen s) /\ to_per s' = to_per s ++ [SubrateInd INVALID_LMP_OR_LL_PARAMETERS 0 0 0 0] /\ ev = []) \/
   exists f l' c' t', cp (cen s') = CParams (interval (cp (cen s))) f c' l' t' /\ to_per s' = to_per s ++ [SubrateInd SUCCESS f l' c' t'] /\
     fmin <= f <= fmax /\ sub_min a <= f <= sub_max a /\ c' = N.min (N.max cont (sub_continuation a)) (f - 1) /\
     l' <= l /\ l' <= sub_latency a /\ t' = N.min t (sub_timeout a)).
Proof. exact accepted_reachable. Qed.
Print Assumptions C33_accepted_within_bounds_partial.

Theorem C33_accepted_witness : exists h s, history start h s /\ quiet s /\ factor (cp (per s)) = 4 /\ factor (cp (cen s)) = 4 /\ timeout (cp (per s)) = 400.
Proof. exact accepted. Qed.
Print Assumptions C33_accepted_witness.

Theorem C33_central_request_partial : forall c p i lat tmo h s m smin smax l cont t, history (connected c p i lat tmo) h s -> up (cen s) = true ->
  exists s' st ev, step s (Host Central m (SubrateRequest smin smax l cont t)) = Some (s', st, ev) /\
  (st = SUCCESS -> cp (cen s') = CParams (interval (cp (cen s))) smax cont l t /\ acceptable (cen s') = Subrate smin smax l cont t /\
     1 <= smin <= smax /\ cont < smax /\ smax * (l + 1) <= 500 /\ timeout_allows (interval (cp (cen s))) smax l t) /\
  (st <> SUCCESS -> s' = s /\ ev = []).
Proof. exact central_request_reachable. Qed.
Print Assumptions C33_central_request_partial.

Theorem C33_always_refused : forall c p i lat tmo h s m fmin fmax l cont t rest, history (connected c p i lat tmo) h s -> (forall e, In e h -> keeps_interval (what e)) ->
  up (cen s) = true -> to_cen s = SubrateReq fmin fmax l cont t :: rest ->
  exists s', step s (Deliver Central m) = Some (s', SUCCESS, []) /\ cp (cen s') = cp (cen s) /\
    to_per s' = to_per s ++ [SubrateInd INVALID_LMP_OR_LL_PARAMETERS 0 0 0 0].
Proof. exact always_refused'. Qed.
Print Assumptions C33_always_refused.

Theorem C33_compatible_request_refuted : exists h s m s' ev fmin fmax lat cont tmo,
  history start h s /\ up (cen s) = true /\ up (per s) = true /\ to_cen s = [SubrateReq fmin fmax lat cont tmo] /\ valid_request (interval (cp (per s))) fmin fmax lat cont tmo /\
  compatible (interval (cp (cen s))) (acceptable (cen s)) fmin fmax lat tmo /\ step s (Deliver Central m) = Some (s', SUCCESS, ev) /\
  to_per s' = [SubrateInd INVALID_LMP_OR_LL_PARAMETERS 0 0 0 0].
Proof. exact compatible_refused. Qed.
Print Assumptions C33_compatible_request_refuted.

Theorem C33_valid_request_refuted : exists h s m smin smax lat cont tmo,
  history start h s /\ up (cen s) = true /\ valid_request (interval (cp (cen s))) smin smax lat cont tmo /\
  step s (Host Central m (SubrateRequest smin smax lat cont tmo)) = Some (s, INVALID_HCI_COMMAND_PARAMETERS, []).
Proof. exact valid_refused. Qed.
Print Assumptions C33_valid_request_refuted.

Theorem C34_phys_agree : forall c p i lat tmo h s, history (connected c p i lat tmo) h s -> up (per s) = true -> to_per s = [] ->
  tx_phy (cen s) = rx_phy (per s) /\ rx_phy (cen s) = tx_phy (per s).
Proof. exact phys_equal. Qed.
Print Assumptions C34_phys_agree.

Theorem C34_events_tell : forall c p i lat tmo h s o s' st ev tx rx, history (connected c p i lat tmo) h s -> step s o = Some (s', st, ev) -> In (PhyUpdateComplete tx rx) ev ->
  exists x, on_side x o = true /\ tx = tx_phy (end_of x s') /\ rx = rx_phy (end_of x s').
Proof. exact phy_events_reachable. Qed.
Print Assumptions C34_events_tell.

Theorem C34_phys_allowed_partial : forall c p i lat tmo h s, history (connected c p i lat tmo) h s -> (forall e, In e h -> ~ phy_of_other_link e) ->
  (tx_phy (cen s) = LE_1M \/ exists a b, tx_preference c Central h a /\ rx_preference p Peripheral h b /\ allows a (tx_phy (cen s)) /\ allows b (tx_phy (cen s))) /\
  (rx_phy (cen s) = LE_1M \/ exists a b, tx_preference p Peripheral h a /\ rx_preference c Central h b /\ allows a (rx_phy (cen s)) /\ allows b (rx_phy (cen s))).
Proof. exact phys_allowed. Qed.
Print Assumptions C34_phys_allowed_partial.

Theorem C34_allowed_witness : exists h s, history start h s /\ (forall e, In e h -> ~ phy_of_other_link e) /\ quiet s /\ up (cen s) = true /\ up (per s) = true /\ tx_phy (cen s) = LE_2M /\ rx_phy (cen s) = LE_CODED /\
  rx_phy (per s) = LE_2M /\ tx_phy (per s) = LE_CODED.
Proof. exact two_m. Qed.
Print Assumptions C34_allowed_witness.

Theorem C34_other_connection_refuted : exists h s, history (connected (Settings 7 1 1 0 0 wide some_about) set 24 0 500) h s /\ quiet s /\ tx_phy (cen s) = LE_CODED /\
  ~ exists phys, tx_preference (Settings 7 1 1 0 0 wide some_about) Central h phys /\ allows phys LE_CODED.
Proof. exact elsewhere. Qed.
Print Assumptions C34_other_connection_refuted.

Theorem C34_central_procedure : forall c p i lat tmo h s m m1 m2 m3 no_tx no_rx tx rx s1 ev1 s2 st2 ev2 s3 st3 ev3 s4 st4 ev4, history (connected c p i lat tmo) h s -> quiet s -> up (cen s) = true ->
  step s (Host Central m (SetPhy no_tx no_rx tx rx)) = Some (s1, SUCCESS, ev1) ->
  step s1 (Deliver Peripheral m1) = Some (s2, st2, ev2) -> step s2 (Deliver Central m2) = Some (s3, st3, ev3) -> step s3 (Deliver Peripheral m3) = Some (s4, st4, ev4) ->
  quiet s4 /\
  both_allow (default_rx (per s)) (if no_tx then supported_phys (cen s) else tx) (tx_phy (cen s)) (tx_phy (cen s4)) /\
  both_allow (default_tx (per s)) (if no_rx then supported_phys (cen s) else rx) (rx_phy (cen s)) (rx_phy (cen s4)) /\
  rx_phy (per s4) = tx_phy (cen s4) /\ tx_phy (per s4) = rx_phy (cen s4) /\
  (m2 M_PHY_UPDATE = true -> ev3 = [PhyUpdateComplete (tx_phy (cen s4)) (rx_phy (cen s4))]).
Proof. exact central_procedure'. Qed.
Print Assumptions C34_central_procedure.

Theorem C34_peripheral_procedure : forall c p i lat tmo h s m m1 m2 no_tx no_rx tx rx s1 ev1 s2 st2 ev2 s3 st3 ev3, history (connected c p i lat tmo) h s -> quiet s -> up (cen s) = true ->
  step s (Host Peripheral m (SetPhy no_tx no_rx tx rx)) = Some (s1, SUCCESS, ev1) ->
  step s1 (Deliver Central m1) = Some (s2, st2, ev2) -> step s2 (Deliver Peripheral m2) = Some (s3, st3, ev3) ->
  quiet s3 /\
  both_allow (if no_tx then supported_phys (per s) else tx) (default_rx (cen s)) (tx_phy (per s)) (tx_phy (per s3)) /\
  both_allow (if no_rx then supported_phys (per s) else rx) (default_tx (cen s)) (rx_phy (per s)) (rx_phy (per s3)) /\
  rx_phy (per s3) = tx_phy (cen s3) /\ tx_phy (per s3) = rx_phy (cen s3) /\
  (m2 M_PHY_UPDATE = true -> ev3 = [PhyUpdateComplete (tx_phy (per s3)) (rx_phy (per s3))]).
Proof. exact peripheral_procedure'. Qed.
Print Assumptions C34_peripheral_procedure.

Theorem C34_procedure_witness : exists h s, history start h s /\ quiet s /\ tx_phy (per s) = LE_2M /\ rx_phy (cen s) = LE_2M /\ tx_phy (cen s) = LE_1M.
Proof. exact by_peripheral. Qed.
Print Assumptions C34_procedure_witness.

Theorem C47_parameters_agree_partial : forall c p i lat tmo h s, history (connected c p i lat tmo) h s -> all_in_step h -> up (per s) = true -> to_per s = [] ->
  interval (cp (per s)) = interval (cp (cen s)) /\ latency (cp (per s)) = latency (cp (cen s)) /\ timeout (cp (per s)) = timeout (cp (cen s)).
Proof. exact params_equal'. Qed.
Print Assumptions C47_parameters_agree_partial.

Theorem C47_agreement_witness : exists h s, history start h s /\ all_in_step h /\ up (per s) = true /\ to_per s = [] /\ interval (cp (per s)) = 40 /\ latency (cp (per s)) = 2.
Proof. exact updated_together. Qed.
Print Assumptions C47_agreement_witness.

Theorem C47_central_update_refuted : exists h s, history start h s /\ quiet s /\ up (cen s) = true /\ up (per s) = true /\ cp (cen s) <> cp (per s) /\
  exists m imin imax lat tmo st ev, In (Entry (Host Central m (ConnectionUpdate imin imax lat tmo)) st ev) h.
Proof. exact updated_apart. Qed.
Print Assumptions C47_central_update_refuted.

Theorem C48_encryption_agrees_partial : forall k c p i lat tmo h s, history (connected c p i lat tmo) h s -> (forall e, In e h -> same_key k (what e)) ->
  up (cen s) = true -> to_cen s = [] -> encrypted (cen s) = encrypted (per s).
Proof. exact encryption_agrees. Qed.
Print Assumptions C48_encryption_agrees_partial.

Theorem C48_key_agreed_partial : forall c p i lat tmo h s o s' st ev, history (connected c p i lat tmo) h s -> step s o = Some (s', st, ev) ->
  encrypted (cen s) = false -> encrypted (cen s') = true ->
  (exists m k, o = Host Central m (LtkReply k)) \/
  exists k m ev, In (Entry (Host Peripheral m (LtkReply k)) SUCCESS ev) h /\ (ltk (cen s) = None \/ ltk (cen s) = Some k).
Proof. exact central_key'. Qed.
Print Assumptions C48_key_agreed_partial.

Theorem C48_witness : exists h s, history start h s /\ (forall e, In e h -> same_key key1 (what e)) /\ up (cen s) = true /\ to_cen s = [] /\ encrypted (per s) = true.
Proof. exact encrypted_pair. Qed.
Print Assumptions C48_witness.

Theorem C48_wrong_key_refuted : exists h s ev, history start h s /\ quiet s /\ up (cen s) = true /\ up (per s) = true /\ encrypted (cen s) = false /\ encrypted (per s) = true /\
  In (Entry (c_ (EnableEncryption key1)) SUCCESS []) h /\ In (Entry (p_ (LtkReply key2)) SUCCESS ev) h /\ In (EncryptionChangeV2 SUCCESS true) ev.
Proof. exact wrong_key. Qed.
Print Assumptions C48_wrong_key_refuted.

Theorem C48_unasked_refuted : exists h s, history start h s /\ quiet s /\ up (cen s) = true /\ encrypted (cen s) = true /\ forall m key st ev, ~ In (Entry (Host Central m (EnableEncryption key)) st ev) h.
Proof. exact unasked. Qed.
Print Assumptions C48_unasked_refuted.

Theorem C49_closed_together : forall c p i lat tmo h s, history (connected c p i lat tmo) h s -> quiet s -> up (cen s) = up (per s).
Proof. exact closed_together. Qed.
Print Assumptions C49_closed_together.

Theorem C49_told_once : forall c p i lat tmo h s x, history (connected c p i lat tmo) h s ->
  (disconnections x h <= 1)%nat /\ (up (end_of x s) = true -> disconnections x h = 0%nat) /\
  (up (end_of x s) = false -> (forall e, In e h -> mask_of (what e) M_DISCONNECTION = true) -> disconnections x h = 1%nat).
Proof. exact told_once. Qed.
Print Assumptions C49_told_once.

Theorem C49_nothing_afterwards : forall s o s' st ev x, up (end_of x s) = false -> on_side x o = true -> step s o = Some (s', st, ev) ->
  ev = [] /\ up (end_of x s') = false /\ (List.length (to_per s') <= List.length (to_per s))%nat /\ (List.length (to_cen s') <= List.length (to_cen s))%nat.
Proof. exact closed_silent. Qed.
Print Assumptions C49_nothing_afterwards.

Theorem C49_settles : forall c p i lat tmo h s m, history (connected c p i lat tmo) h s ->
  exists ds s', history (connected c p i lat tmo) (ds ++ h) s' /\ quiet s' /\ forall e, In e ds -> exists x, what e = Deliver x m.
Proof. exact settles'. Qed.
Print Assumptions C49_settles.

Theorem C49_never_aborts : forall c p i lat tmo h s o, history (connected c p i lat tmo) h s -> step s o <> None.
Proof. exact never_aborts. Qed.
Print Assumptions C49_never_aborts.

Theorem C49_witness : exists h s, history start h s /\ quiet s /\ up (cen s) = false /\ up (per s) = false /\
  (forall e, In e h -> mask_of (what e) M_DISCONNECTION = true) /\ disconnections Central h = 1%nat /\ disconnections Peripheral h = 1%nat.
Proof. exact both_closed. Qed.
Print Assumptions C49_witness.

