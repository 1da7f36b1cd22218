(** Properties C68 to C72: the connections of the BR/EDR controller. *)
From Coq Require Import Permutation.
From Verif Require Import Prelude Table Sco Bredr BredrBase BredrSpec BredrInv BredrConn BredrRefine BredrCount BredrTime BredrLive BredrWatch BredrFrame BredrData BredrIncoming BredrWitness.
Open Scope N_scope.

Theorem C68_creates_accounted : forall order cfg, (forall t, Permutation (order t) t) -> forall a h s, history order cfg h s ->
  (forall e, In e h -> audible (what e) /\ what e <> Command Reset /\ ~ answers a (what e)) ->
  (completions a h + scheduled_completions a s + (if paging a s then 1 else 0) = creates a h)%Z.
Proof. exact created_answered. Qed.
Print Assumptions C68_creates_accounted.

Theorem C68_paging_ends : forall order cfg, (forall t, Permutation (order t) t) -> forall M h s now st out,
  history order cfg (Entry now Tick st out :: h) s -> 0x2000 <= M ->
  (forall e n, In e h -> what e = Command (WritePageTimeout n) -> n <= M) ->
  (forall e a allow, In e h -> what e = Command (CreateConnection a allow) -> at_time e + M * 625 <= now) -> page s = None.
Proof. exact paging_ends. Qed.
Print Assumptions C68_paging_ends.

Theorem C68_create_answered_once : forall order cfg, (forall t, Permutation (order t) t) -> forall M a h s now st out,
  history order cfg (Entry now Tick st out :: h) s -> timely (Entry now Tick st out :: h) -> 0x2000 <= M ->
  (forall e n, In e h -> what e = Command (WritePageTimeout n) -> n <= M) ->
  (forall e a allow, In e h -> what e = Command (CreateConnection a allow) -> at_time e + M * 625 <= now) ->
  (forall e, In e h -> audible (what e) /\ what e <> Command Reset /\ ~ answers a (what e)) ->
  completions a (Entry now Tick st out :: h) = creates a (Entry now Tick st out :: h).
Proof. exact create_answered_once. Qed.
Print Assumptions C68_create_answered_once.

Theorem C68_witness : exists h s now st out,
  history same_order some_config (Entry now Tick st out :: h) s /\ timely (Entry now Tick st out :: h) /\
  (forall e n, In e h -> what e = Command (WritePageTimeout n) -> n <= 0x2000) /\
  (forall e a allow, In e h -> what e = Command (CreateConnection a allow) -> at_time e + 0x2000 * 625 <= now) /\
  (forall e, In e h -> audible (what e) /\ what e <> Command Reset /\ ~ answers you (what e)) /\
  creates you (Entry now Tick st out :: h) = 2%Z.
Proof. exact create_witness. Qed.
Print Assumptions C68_witness.

Theorem C69_one_link_per_peer : forall order cfg, (forall t, Permutation (order t) t) -> forall h s, history order cfg h s ->
  NoDup (handles (seen s)) /\ NoDup (partners (seen s)) /\ forall k, In k (handles (seen s)) -> k <= 255.
Proof. exact one_link. Qed.
Print Assumptions C69_one_link_per_peer.

Theorem C69_events_tell_links : forall order cfg, (forall t, Permutation (order t) t) -> forall h s, history order cfg h s ->
  (forall e, In e h -> audible (what e)) ->
  exists lss, explains h lss (seen s) /\
    forall cc dc, (total (fun e => told cc dc (sent e)) h + to_tell cc dc s = total (happened cc dc) lss)%Z.
Proof. exact history_explained. Qed.
Print Assumptions C69_events_tell_links.

Theorem C69_announced_finished_partial : forall order cfg, (forall t, Permutation (order t) t) -> forall k h s, k <= 255 -> history order cfg h s ->
  (forall e, In e h -> audible (what e) /\ what e <> Command Reset /\ (absurd (what e) -> k <> 0)) ->
  (announced k h + announced_next k s = finished k h + finished_next k s + (if has (acls s) k then 1 else 0))%Z.
Proof. exact announced_finished. Qed.
Print Assumptions C69_announced_finished_partial.

Theorem C69_phantom_link_refuted : exists h s,
  history same_order some_config h s /\ (forall e, In e h -> audible (what e) /\ what e <> Command Reset) /\
  announced 0 h = 1%Z /\ announced_next 0 s = 0%Z /\ finished 0 h = 0%Z /\ finished_next 0 s = 0%Z /\ acls s = [].
Proof. exact absurd_witness. Qed.
Print Assumptions C69_phantom_link_refuted.

Theorem C69_witness : exists h s,
  history same_order some_config h s /\ (forall e, In e h -> audible (what e) /\ what e <> Command Reset /\ ~ absurd (what e)) /\
  announced 0 h = 1%Z /\ finished 0 h = 1%Z /\ has (acls s) 0 = false /\ announced 1 h = 1%Z /\ finished 1 h = 0%Z /\ has (acls s) 1 = true.
Proof. exact links_witness. Qed.
Print Assumptions C69_witness.

Theorem C70_silent_links_end : forall order cfg, (forall t, Permutation (order t) t) -> forall h s now st out,
  history order cfg (Entry now Tick st out :: h) s -> timely (Entry now Tick st out :: h) ->
  forall k c, lookup (acls s) k = Some c -> exists e, In e h /\ contact (address s) (acl_peer c) e /\ now <= at_time e + 3000000.
Proof. exact supervised. Qed.
Print Assumptions C70_silent_links_end.

Theorem C70_live_links_stay : forall order cfg, (forall t, Permutation (order t) t) -> forall h s now s' st out,
  history order cfg h s -> timely h -> step order cfg now s Tick = Ok (s', st, out) ->
  forall k c, lookup (acls s) k = Some c -> lookup (acls s') k = None ->
  forall e, In e h -> received_from (address s) (acl_peer c) e -> at_time e + 3000000 < now.
Proof. exact not_early. Qed.
Print Assumptions C70_live_links_stay.

Theorem C70_witness : exists h s s' st out c,
  history same_order some_config h s /\ timely h /\ lookup (acls s) 0 = Some c /\ acl_peer c = you /\
  (exists e, In e h /\ received_from (address s) you e /\ at_time e = 3300000) /\
  (exists t st out h', h = Entry t Tick st out :: h' /\ t = 6300000) /\
  step same_order some_config 6310000 s Tick = Ok (s', st, out) /\ lookup (acls s') 0 = None.
Proof. exact watch_witness. Qed.
Print Assumptions C70_witness.

Theorem C71_request_origin : forall order cfg, (forall t, Permutation (order t) t) -> forall h s now o s' st out a cls,
  history order cfg h s -> step order cfg now s o = Ok (s', st, out) -> In (Event (ConnectionRequest a cls LINK_ACL)) out ->
  exists rssi p allow, o = Receive rssi p /\ for_me p s = true /\ source p = a /\ content p = Page cls allow /\
    page_scan_enable s = true /\ page_scan s = None /\ ~ In a (peers s) /\ out = [Event (ConnectionRequest a cls LINK_ACL)] /\
    page_scan s' = Some (ScanState a allow).
Proof. exact request_origin. Qed.
Print Assumptions C71_request_origin.

Theorem C71_page_requests_partial : forall order cfg, (forall t, Permutation (order t) t) -> forall h s now rssi p cls allow,
  history order cfg h s -> for_me p s = true -> content p = Page cls allow ->
  page_scan_enable s = true -> unmasked s 0x04 = true -> page_scan s = None -> ~ In (source p) (peers s) ->
  exists s', step order cfg now s (Receive rssi p) = Ok (s', None, [Event (ConnectionRequest (source p) cls LINK_ACL)]) /\
    page_scan s' = Some (ScanState (source p) allow).
Proof. exact page_requests. Qed.
Print Assumptions C71_page_requests_partial.

Theorem C71_accept_told : forall order cfg, (forall t, Permutation (order t) t) -> forall h s now a try s' st out ops h' s'' now',
  history order cfg h s -> step order cfg now s (Command (AcceptConnection a try)) = Ok (s', st, out) ->
  paged_by a s = true -> ~ In a (peers s) -> unmasked s 0x03 = true ->
  st = Some SUCCESS /\ page_scan s' = None /\ In a (peers s') /\
  (play order cfg (Entry now (Command (AcceptConnection a try)) st out :: h) s' ops = Some (h', s'') -> timely h' -> In (now', Tick) ops ->
   exists k n, In (k, a) (fst (seen s')) /\ h' = n ++ Entry now (Command (AcceptConnection a try)) st out :: h /\
     (exists e, In e n /\ In (Sent (Air (address s) a (PageResponse try))) (sent e)) /\
     (exists e, In e n /\ In (Event (ConnectionComplete SUCCESS k a LINK_ACL)) (sent e))).
Proof. exact accept_told. Qed.
Print Assumptions C71_accept_told.

Theorem C71_witness : exists h s s1 s2 s3,
  history same_order some_config h s /\ page_scan_enable s = true /\ unmasked s 0x04 = true /\ page_scan s = None /\ ~ In you (peers s) /\
  step same_order some_config 2000 s (from_you (Page 0x20041c 1)) = Ok (s1, None, [Event (ConnectionRequest you 0x20041c LINK_ACL)]) /\
  paged_by you s1 = true /\ ~ In you (peers s1) /\ unmasked s1 0x03 = true /\
  step same_order some_config 3000 s1 (Command (AcceptConnection you false)) = Ok (s2, Some SUCCESS, []) /\
  step same_order some_config 4000 s2 Tick =
    Ok (s3, None, [Event (ConnectionComplete SUCCESS 0 you LINK_ACL); Sent (Air me you (PageResponse false))]).
Proof. exact request_witness. Qed.
Print Assumptions C71_witness.

Theorem C71_rejected_request_stays : forall order cfg h s now a reason s' out,
  history order cfg h s -> step order cfg now s (Command (RejectConnection a reason)) = Ok (s', Some SUCCESS, out) ->
  exists r, page_scan s' = Some r /\ scan_peer r = a.
Proof. exact rejected_stays. Qed.
Print Assumptions C71_rejected_request_stays.

Theorem C71_pending_request_blocks : forall order cfg, (forall t, Permutation (order t) t) -> forall ops h s h' s' r,
  history order cfg h s -> page_scan s = Some r -> play order cfg [] s ops = Some (h', s') ->
  (forall now o, In (now, o) ops -> o <> Command Reset /\ forall try, o <> Command (AcceptConnection (scan_peer r) try)) ->
  page_scan s' = Some r /\ forall e a cls, In e h' -> ~ In (Event (ConnectionRequest a cls LINK_ACL)) (sent e).
Proof. exact pending_blocks. Qed.
Print Assumptions C71_pending_request_blocks.

Theorem C71_deaf_after_reject_refuted : exists h s r s1 s2,
  history same_order some_config h s /\ page_scan s = Some r /\
  step same_order some_config 3000 s (Command (RejectConnection you 0x0d)) = Ok (s1, Some SUCCESS, []) /\ page_scan s1 = Some r /\
  (forall b, step same_order some_config 9000 s1 (Receive 0 (Air b me (Page 0x20041c 1))) = Ok (s1, None, [])) /\
  acls s1 = [] /\ step same_order some_config 9000 s1 (Command (AcceptConnection you false)) = Ok (s2, Some SUCCESS, []) /\ peers s2 = [you].
Proof. exact refused_witness. Qed.
Print Assumptions C71_deaf_after_reject_refuted.

Theorem C72_data_in_order : forall order cfg, (forall t, Permutation (order t) t) -> forall a ops h s,
  play order cfg [] (new_bredr a) ops = Some (h, s) -> timely h ->
  data_sent h ++ waiting s = given order cfg (new_bredr a) ops.
Proof. exact data_fifo. Qed.
Print Assumptions C72_data_in_order.

Theorem C72_data_flushed : forall order cfg, (forall t, Permutation (order t) t) -> forall h s now st out,
  history order cfg (Entry now Tick st out :: h) s -> timely (Entry now Tick st out :: h) -> waiting s = [].
Proof. exact data_flushed. Qed.
Print Assumptions C72_data_flushed.

Theorem C72_data_received : forall order cfg, (forall t, Permutation (order t) t) -> forall h s now rssi p b bc d,
  history order cfg h s -> for_me p s = true -> content p = Acl b bc d ->
  exists s' out, step order cfg now s (Receive rssi p) = Ok (s', None, out) /\ seen s' = seen s /\
    (forall k, In (k, source p) (fst (seen s)) -> out = [AclToHost k (if b =? 0 then 2 else b) bc d]) /\
    (~ In (source p) (peers s) -> out = []).
Proof. exact acl_received. Qed.
Print Assumptions C72_data_received.

Theorem C72_witness : exists ops h s,
  play same_order some_config [] (new_bredr me) ops = Some (h, s) /\ timely h /\
  given same_order some_config (new_bredr me) ops = [Sent (Air me you (Acl 0 0 [1; 2])); Event (CompletedPackets 0 1); Sent (Air me you (Acl 1 0 [3])); Event (CompletedPackets 0 1)] /\
  data_sent h = given same_order some_config (new_bredr me) ops /\ fst (seen s) = [(0, you)].
Proof. exact data_witness. Qed.
Print Assumptions C72_witness.
