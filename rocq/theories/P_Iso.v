(** Properties of connected and broadcast isochronous streams: C54 to C64. *)
From Verif Require Import Prelude Table Iso IsoSpec IsoProofs IsoMore IsoLife IsoSafe IsoParams IsoEnd IsoPath IsoPeer IsoTight IsoWitness.
Open Scope N_scope.

Theorem C54_sane_no_crash_partial : forall ck h s e o, history ck sane h s -> sane s o -> step ck e s o <> Panic.
Proof. exact sane_never_panics. Qed.
Print Assumptions C54_sane_no_crash_partial.

Theorem C54_no_interval_refuted : forall ck, crashes ck [] (SetCig 1 0 0 false 40 40 []).
Proof. exact crash_intervals. Qed.
Print Assumptions C54_no_interval_refuted.

Theorem C54_empty_stream_refuted : forall ck, crashes ck [link; SetCig 1 10000 10000 false 40 40 [Entry 1 (stream2 0 0)]] (CreateCis [(0xe00, 1)]).
Proof. exact crash_empty_stream. Qed.
Print Assumptions C54_empty_stream_refuted.

Theorem C54_large_stream_refuted : forall ck, crashes ck [link; SetCig 1 10000 10000 false 40 40 [Entry 1 (stream2 4000 100)]] (CreateCis [(0xe00, 1)]).
Proof. exact crash_large_stream. Qed.
Print Assumptions C54_large_stream_refuted.

Theorem C54_overflow_refuted : crashes true [] (SetCig 1 1048573 1048574 false 40 40 [Entry 1 (stream2 100 100)]).
Proof. exact crash_overflow. Qed.
Print Assumptions C54_overflow_refuted.

Theorem C54_other_packet_refuted : forall ck, crashes ck [link] (Receive 0 1 OtherLlcp).
Proof. exact crash_other. Qed.
Print Assumptions C54_other_packet_refuted.

Theorem C54_error_code_refuted : forall ck, crashes ck [link; group; one; rsp_] (Receive 0 1 (CisTerminate 1 1 0x2b)).
Proof. exact crash_error. Qed.
Print Assumptions C54_error_code_refuted.

Theorem C54_removed_group_refuted : exists h s m s', history true sane h s /\ map what h = [CreateCis [(0xe00, 1); (0xe02, 1)]; group'; group; link] /\
  fields (RemoveCig 2) /\ step true on s (RemoveCig 2) = Ok s' (sent m) /\ accepted m = true /\ step true on s' (Receive 0 1 CisRsp) = Panic.
Proof. exact crash_removed. Qed.
Print Assumptions C54_removed_group_refuted.

Theorem C55_handles_in_range : forall ck h s x v, history ck orderly h s -> lookup (streams h) x = Some v -> 0xe00 <= x <= 0xefd.
Proof. exact streams_range. Qed.
Print Assumptions C55_handles_in_range.

Theorem C55_one_handle_per_stream : forall ck h s x y g c, history ck orderly h s -> lookup (streams h) x = Some (Own g c) -> lookup (streams h) y = Some (Own g c) -> x = y.
Proof. exact own_unique. Qed.
Print Assumptions C55_one_handle_per_stream.

Theorem C55_requested_handle_new : forall ck h s e o s' out a x g c, history ck orderly h s -> orderly s o -> step ck e s o = Ok s' out ->
  In (Event (CisRequested a x g c)) out -> lookup (streams h) x = None.
Proof. exact requested_fresh. Qed.
Print Assumptions C55_requested_handle_new.

Theorem C55_configured_handles : forall ck h s e o s' out g l, history ck orderly h s -> orderly s o -> step ck e s o = Ok s' out ->
  sets o = Some (g, l) -> accepted (Moment e o out) = true ->
  Forall2 (fun x n =>
    (lookup (streams h) x = None \/ lookup (streams h) x = Some (Own g (n_id n))) /\
    lookup (streams (Moment e o out :: h)) x = Some (Own g (n_id n))) (handles (Moment e o out)) l.
Proof. exact set_cig_handles. Qed.
Print Assumptions C55_configured_handles.

Theorem C56_unknown_handle_exact_partial : forall ck h s e o s' out x c st hs, history ck orderly h s -> step ck e s o = Ok s' out -> names o = Some x ->
  answers out = [(c, st, hs)] -> (st = UNKNOWN_CONNECTION <-> lookup (streams h) x = None).
Proof. exact unknown_exact. Qed.
Print Assumptions C56_unknown_handle_exact_partial.

Theorem C56_handle_lost_refuted : exists h s s', history true sane h s /\ group_of 1 h = Some group /\ lookup (streams h) 0xe00 = None /\
  (exists m h', h = m :: h' /\ lookup (streams h') 0xe00 = Some (Own 1 1) /\ what m = Receive 0 1 (CisTerminate 1 1 0x13)) /\
  step true on s (CreateCis [(0xe00, 1)]) = Ok s' [Event (Answer OP_CREATE_CIS UNKNOWN_CONNECTION [])].
Proof. exact handle_lost. Qed.
Print Assumptions C56_handle_lost_refuted.

Theorem C57_every_command_answered_once : forall ck P h s e o out s', history ck P h s -> step ck e s o = Ok s' out ->
  match command o with
  | Some c => exists st hs, answers out = [(c, st, hs)] /\
      (st <> SUCCESS -> s' = s /\ out = [Event (Answer c st [])])
  | None => answers out = []
  end.
Proof. exact commands_answered. Qed.
Print Assumptions C57_every_command_answered_once.

Theorem C58_frozen_group_refused : forall ck h s e o s' out g l, history ck orderly h s -> step ck e s o = Ok s' out -> sets o = Some (g, l) -> frozen g h = true ->
  exists c, command o = Some c /\ out = [Event (Answer c COMMAND_DISALLOWED [])].
Proof. exact frozen_refused. Qed.
Print Assumptions C58_frozen_group_refused.

Theorem C58_disallowed_only_if_frozen : forall ck h s e o s' out g l c hs, history ck orderly h s -> step ck e s o = Ok s' out -> sets o = Some (g, l) ->
  answers out = [(c, COMMAND_DISALLOWED, hs)] -> frozen g h = true \/ exists n, In n l /\ one_way n.
Proof. exact disallowed_reason. Qed.
Print Assumptions C58_disallowed_only_if_frozen.

Theorem C58_group_removal : forall ck h s e g s' out, history ck orderly h s -> step ck e s (RemoveCig g) = Ok s' out ->
  exists st, answers out = [(OP_REMOVE_CIG, st, [])] /\
    (st = UNKNOWN_CONNECTION <-> group_of g h = None) /\
    (st = SUCCESS -> forall x c, lookup (streams h) x = Some (Own g c) -> up x h = false) /\
    (group_of g h <> None -> frozen g h = false -> st = SUCCESS).
Proof. exact remove_group. Qed.
Print Assumptions C58_group_removal.

Theorem C59_interval_fits_unframed_partial : forall h s e o s' out a g c p, history true orderly h s -> orderly s o -> step true e s o = Ok s' out ->
  In (Send a (CisReq g c p)) out -> p_framed p = false -> exists o', group_of g h = Some o' /\ interval_fits o' (p_iso p).
Proof. exact request_interval. Qed.
Print Assumptions C59_interval_fits_unframed_partial.

Theorem C59_framed_latency_refuted : exists h s, history true sane h s /\ group_of 1 h = Some framed_group /\
  exists s' out p, step true on s (CreateCis [(0xe00, 1)]) = Ok s' out /\ In (Send 1 (CisReq 1 1 p)) out /\ ~ interval_fits framed_group (p_iso p).
Proof. exact latency_exceeded. Qed.
Print Assumptions C59_framed_latency_refuted.

Theorem C59_unchecked_overflow_refuted : exists h s, history false orderly h s /\ group_of 1 h = Some wrapped /\
  exists s' out p, step false on s (CreateCis [(0xe00, 1)]) = Ok s' out /\ In (Send 1 (CisReq 1 1 p)) out /\ ~ interval_fits wrapped (p_iso p).
Proof. exact interval_wrapped. Qed.
Print Assumptions C59_unchecked_overflow_refuted.

Theorem C60_established_when_down : forall ck h s e o s' out x r, history ck orderly h s -> orderly s o -> step ck e s o = Ok s' out ->
  In (Event (Established SUCCESS x r)) out -> up x h = false /\ up x (Moment e o out :: h) = true.
Proof. exact established_once. Qed.
Print Assumptions C60_established_when_down.

Theorem C60_up_streams_known : forall ck h s x, history ck orderly h s -> up x h = true -> lookup (streams h) x <> None.
Proof. exact up_known. Qed.
Print Assumptions C60_up_streams_known.

Theorem C60_disconnected_twice_refuted : exists h s, history true sane h s /\ (forall st x r m, In m h -> ~ In (Event (Established st x r)) (sent m)) /\
  exists m m' h', h = m :: m' :: h' /\ sent m = [Event (Disconnected 0xe00 0x13)] /\ In (Event (Disconnected 0xe00 0x16)) (sent m').
Proof. exact disconnected_twice. Qed.
Print Assumptions C60_disconnected_twice_refuted.

Theorem C61_creation_stuck_refuted : exists h s, history true sane h s /\ (forall x, up x h = false) /\
  map what h = [Disconnect 0xe00 0x13; CreateCis [(0xe00, 1); (0xe01, 1)]; group; link] /\
  forall k s', history true orderly (k ++ h) s' -> (forall m a r, In m k -> what m <> RemoveLink a r) ->
    forall m l, In m k -> what m = CreateCis l -> accepted m = false.
Proof. exact creation_stuck. Qed.
Print Assumptions C61_creation_stuck_refuted.

Theorem C62_request_carries_configuration : forall ck h s e o s' out a g c p, history ck orderly h s -> orderly s o -> step ck e s o = Ok s' out -> In (Send a (CisReq g c p)) out ->
  exists o' n, group_of g h = Some o' /\ entry_for g c h = Some n /\ carries_group o' p /\ carries_stream (n_config n) p.
Proof. exact request_carries. Qed.
Print Assumptions C62_request_carries_configuration.

Theorem C62_both_hosts_told_partial : forall ck h1 s1 e1 o s1' out1 a g c p h2 s2 k a' e2 e3 e4 e5 k1 k2,
  history ck sane h1 s1 -> sane s1 o -> step ck e1 s1 o = Ok s1' out1 -> In (Send a (CisReq g c p)) out1 ->
  unanswered a (Moment e1 o out1 :: h1) = 1%nat ->
  history ck sane h2 s2 -> sane s2 (Receive k a' (CisReq g c p)) -> unconfirmed a' h2 = 0%nat ->
  exists x y s2' s2'' s1'' s2''' d1 d2 r1 r2 more,
    lookup (streams (Moment e1 o out1 :: h1)) x = Some (Own g c) /\
    step ck e2 s2 (Receive k a' (CisReq g c p)) = Ok s2' [Event (CisRequested a' y g c)] /\
    step ck e3 s2' (AcceptCis y) = Ok s2'' [Send a' CisRsp; Event (Answer OP_ACCEPT SUCCESS [])] /\
    step ck e4 s1' (Receive k1 a CisRsp) = Ok s1'' (Send a (CisInd d1 d2) :: Event (Established SUCCESS x r1) :: more) /\
    step ck e5 s2'' (Receive k2 a' (CisInd d1 d2)) = Ok s2''' [Event (Established SUCCESS y r2)] /\
    exchanged r1 r2.
Proof. exact ends_agree. Qed.
Print Assumptions C62_both_hosts_told_partial.

Theorem C62_reports_differ_refuted : exists h1 s1 h2 s2, history true sane h1 s1 /\ history true sane h2 s2 /\
  map what h1 = [Receive 0 1 CisRsp; one; uneven; link] /\
  map what h2 = [Receive 0 1 (CisInd 10000 10000); AcceptCis 0xe00; Receive 0 1 (CisReq 1 1 uneven_params); AddLink 1 PERIPHERAL] /\
  exists r1 r2 m1 m2, In m1 h1 /\ In m2 h2 /\ In (Event (Established SUCCESS 0xe00 r1)) (sent m1) /\ In (Event (Established SUCCESS 0xe00 r2)) (sent m2) /\
    In (Send 1 (CisInd 10000 10000)) (sent m1) /\ (exists m, In m h1 /\ In (Send 1 (CisReq 1 1 uneven_params)) (sent m)) /\
    e_bn_cp r1 = 1 /\ e_bn_cp r2 = 4.
Proof. exact told_differently. Qed.
Print Assumptions C62_reports_differ_refuted.

Theorem C62_answer_misattributed_refuted : exists h s, history true sane h s /\
  (exists m1 m2 h', h = m2 :: m1 :: h' /\ what m1 = CreateCis [(0xe00, 1)] /\ accepted m1 = true /\ what m2 = CreateCis [(0xe01, 1)] /\ accepted m2 = true) /\
  (forall k, exists s' d1 d2 r, step true on s (Receive k 1 CisRsp) =
     Ok s' [Send 1 (CisInd d1 d2); Event (Established SUCCESS (if Nat.eqb (Nat.modulo k 2) 0 then 0xe00 else 0xe01) r)]).
Proof. exact misassociated. Qed.
Print Assumptions C62_answer_misattributed_refuted.

Theorem C63_setup_path : forall ck h s e x d k l s' u, history ck orderly h s -> step ck e s (SetupPath x d k l) = Ok s' u -> lookup (streams h) x <> None ->
  (accepted (Moment e (SetupPath x d k l) u) = true -> path x d h = false) /\
  (forall g c, lookup (streams h) x = Some (Own g c) -> path x d h = false -> l = [] \/ k <> 3 ->
     accepted (Moment e (SetupPath x d k l) u) = true).
Proof. exact setup_exact. Qed.
Print Assumptions C63_setup_path.

Theorem C63_remove_path : forall ck h s e x i d s' u, history ck orderly h s -> step ck e s (RemovePath x i d) = Ok s' u -> lookup (streams h) x <> None ->
  accepted (Moment e (RemovePath x i d) u) = (negb i || path x false h) && (negb d || path x true h).
Proof. exact remove_exact. Qed.
Print Assumptions C63_remove_path.

Theorem C63_unused_direction_refuted : exists h s, history true sane h s /\ entry_for 1 1 h = Some (Entry 1 (stream2 100 0)) /\ lookup (streams h) 0xe00 = Some (Own 1 1) /\
  path 0xe00 false h = true /\ path 0xe00 true h = true.
Proof. exact useless_path. Qed.
Print Assumptions C63_unused_direction_refuted.

Theorem C64_created_handles : forall ck P h s e b adv num iv sdu lat rtn phy s' out b' x1 x2 x3 x4 hs,
  history ck P h s -> step ck e s (CreateBig b adv num iv sdu lat rtn phy) = Ok s' out ->
  In (Event (BigCreated b' x1 x2 x3 x4 hs)) out ->
  b' = b /\ lookup (broadcasts h) b = None /\ lenN hs = num /\ NoDup hs /\ periodic e adv = Some true /\
  (forall x, In x hs -> 0xd00 <= x <= 0xdfe) /\
  (forall c a ks, lookup (broadcasts h) c = Some (a, ks) -> a <> adv /\ forall x, In x hs -> ~ In x ks).
Proof. exact big_created. Qed.
Print Assumptions C64_created_handles.

Theorem C64_groups_disjoint : forall ck P h s b c a a' hs ks x, history ck P h s -> lookup (broadcasts h) b = Some (a, hs) -> lookup (broadcasts h) c = Some (a', ks) ->
  In x hs -> In x ks -> b = c.
Proof. exact big_disjoint. Qed.
Print Assumptions C64_groups_disjoint.

Theorem C64_valid_creation_accepted : forall ck P h s e b adv num iv sdu lat rtn phy s' out,
  history ck P h s -> step ck e s (CreateBig b adv num iv sdu lat rtn phy) = Ok s' out ->
  b <= 0xef -> adv <= 0xef -> lookup (broadcasts h) b = None -> periodic e adv = Some true ->
  (forall c a ks, lookup (broadcasts h) c = Some (a, ks) -> a <> adv) ->
  1 <= num <= 0x1f -> 0xff <= iv <= 0xfffff -> 1 <= sdu <= 0xfff -> 5 <= lat <= 0xfa0 -> rtn <= 0xf -> phy <> 0 ->
  exists x1 x2 x3 x4 hs, out = [Event (Answer OP_CREATE_BIG SUCCESS []); Event (BigCreated b x1 x2 x3 x4 hs)].
Proof. exact big_accepted. Qed.
Print Assumptions C64_valid_creation_accepted.

Theorem C64_termination : forall ck P h s e b r s' out, history ck P h s -> step ck e s (TerminateBig b r) = Ok s' out -> b <= 0xef ->
  (lookup (broadcasts h) b <> None -> out = [Event (Answer OP_TERMINATE_BIG SUCCESS []); Event (BigTerminated b r)]) /\
  (lookup (broadcasts h) b = None -> out = [Event (Answer OP_TERMINATE_BIG UNKNOWN_ADVERTISING [])]).
Proof. exact big_terminated. Qed.
Print Assumptions C64_termination.

Theorem C54_C64_streams_reachable : exists h s, history true sane h s /\ up 0xe00 h = true /\ path 0xe00 true h = true /\ path 0xe00 false h = false /\
  lookup (streams h) 0xe00 = Some (Own 1 1) /\ frozen 1 h = true /\ unanswered 1 h = 0%nat.
Proof. exact establishes. Qed.
Print Assumptions C54_C64_streams_reachable.

Theorem C62_exchange_reachable : exists h s s' out, history true sane h s /\ sane s one /\ step true on s one = Ok s' out /\
  In (Send 1 (CisReq 1 1 asked_params)) out /\ unanswered 1 (Moment on one out :: h) = 1%nat.
Proof. exact asks_peer. Qed.
Print Assumptions C62_exchange_reachable.

Theorem C62_peer_reachable : exists h s, history true sane h s /\ sane s (Receive 0 1 (CisReq 1 1 asked_params)) /\ unconfirmed 1 h = 0%nat /\ h <> [].
Proof. exact peer_ready. Qed.
Print Assumptions C62_peer_reachable.

Theorem C64_broadcast_reachable : exists h s, history true sane h s /\ lookup (broadcasts h) 3 = Some (0, [0xd00; 0xd01; 0xd04]) /\ lookup (broadcasts h) 1 = None /\
  lookup (broadcasts h) 2 = Some (1, [0xd02; 0xd03]).
Proof. exact broadcasting. Qed.
Print Assumptions C64_broadcast_reachable.

Theorem C63_broadcast_setup_path : forall ck h s e x d k l s' u, history ck orderly h s -> step ck e s (SetupPath x d k l) = Ok s' u -> in_broadcast x h = true ->
  (accepted (Moment e (SetupPath x d k l) u) = true <-> d = false /\ bpath x h = false /\ (l = [] \/ k <> 3)).
Proof. exact bis_setup_exact. Qed.
Print Assumptions C63_broadcast_setup_path.

Theorem C63_broadcast_remove_path : forall ck h s e x i d s' u, history ck orderly h s -> step ck e s (RemovePath x i d) = Ok s' u -> in_broadcast x h = true ->
  accepted (Moment e (RemovePath x i d) u) = bpath x h && negb d.
Proof. exact bis_remove_exact. Qed.
Print Assumptions C63_broadcast_remove_path.

Theorem C63_broadcast_reachable : exists h s, history true sane h s /\ in_broadcast 0xd00 h = true /\ bpath 0xd00 h = true /\ in_broadcast 0xd01 h = true /\ bpath 0xd01 h = false.
Proof. exact broadcasting_path. Qed.
Print Assumptions C63_broadcast_reachable.

Theorem C64_accepted_creation_valid : forall ck P h s e b adv num iv sdu lat rtn phy s' out,
  history ck P h s -> step ck e s (CreateBig b adv num iv sdu lat rtn phy) = Ok s' out ->
  (exists b' x1 x2 x3 x4 hs, In (Event (BigCreated b' x1 x2 x3 x4 hs)) out) \/ accepted (Moment e (CreateBig b adv num iv sdu lat rtn phy) out) = true ->
  b <= 0xef /\ adv <= 0xef /\ 1 <= num <= 0x1f /\ 0xff <= iv <= 0xfffff /\ 1 <= sdu <= 0xfff /\ 5 <= lat <= 0xfa0 /\ rtn <= 0xf /\ phy <> 0.
Proof. exact big_valid. Qed.
Print Assumptions C64_accepted_creation_valid.

Theorem C64_no_advertising_set : forall ck P h s e b adv num iv sdu lat rtn phy s' out,
  history ck P h s -> step ck e s (CreateBig b adv num iv sdu lat rtn phy) = Ok s' out ->
  b <= 0xef -> adv <= 0xef -> lookup (broadcasts h) b = None ->
  periodic e adv <> Some true \/ (exists c ks, lookup (broadcasts h) c = Some (adv, ks)) ->
  out = [Event (Answer OP_CREATE_BIG UNKNOWN_ADVERTISING [])].
Proof. exact big_no_set. Qed.
Print Assumptions C64_no_advertising_set.

Theorem C59_framed_interval_partial : forall ck h s e o s' out a g c p,
  history ck orderly h s -> orderly s o -> step ck e s o = Ok s' out -> In (Send a (CisReq g c p)) out -> p_framed p = true ->
  exists o', group_of g h = Some o' /\
    match o' with
    | SetCig _ cp pc _ _ _ _ => cp < 2 ^ 24 -> pc < 2 ^ 24 ->
        cp <= 1250 * p_iso p /\ pc <= 1250 * p_iso p /\ (1250 * p_iso p < cp + 1250 \/ 1250 * p_iso p < pc + 1250)
    | _ => True
    end.
Proof. exact framed_interval. Qed.
Print Assumptions C59_framed_interval_partial.

Theorem C60_link_loss_reported : forall ck h s e a r s' out, history ck orderly h s -> orderly s (RemoveLink a r) -> step ck e s (RemoveLink a r) = Ok s' out ->
  exists r', (declared_error r = true -> r' = r) /\
  (forall x c, lookup (conns s) x = Some c -> c_acl c = Some a ->
    (up x h = true -> In (Event (Disconnected x r')) out) /\
    (c_phase c = PendingRsp \/ c_phase c = PendingInd -> In (Event (Established r' x no_report)) out)) /\
  (forall q, In q (queue s) -> r_acl q = a -> In (Event (Established r' (r_handle q) no_report)) out) /\
  (forall x, up x (Moment e (RemoveLink a r) out :: h) = true -> up x h = true /\ forall c, lookup (conns s) x = Some c -> c_acl c <> Some a).
Proof. exact loss_reported. Qed.
Print Assumptions C60_link_loss_reported.
