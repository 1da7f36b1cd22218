(** Histories used as witnesses by the theorems on the BR/EDR controller. *)
From Coq Require Import Permutation.
From Verif Require Import Prelude Table Sco Bredr BredrBase BredrInv BredrConn BredrSpec BredrRefine BredrCount BredrTime BredrLive BredrWatch BredrData BredrIncoming.
Open Scope N_scope.

Definition same_order (t : table sco_link) : table sco_link := t.
Lemma same_order_any : forall t, Permutation (same_order t) t.
Proof. intros t. apply Permutation_refl. Qed.
Definition some_config : config := Config [0; 0; 0] 12 0 15 1.
Definition me : addr := [1; 2; 3; 4; 5; 6].
Definition you : addr := [9; 8; 7; 6; 5; 4].
Definition from_you (b : body) : op := Receive 0 (Air you me b).

Ltac played ops :=
  eapply (play_history same_order some_config ops [] (new_bredr me)); [apply power_on|vm_compute; reflexivity].
Ltac plain := intros e I; cbn in I; repeat (destruct I as [<-|I]; [cbn; repeat split; auto; try discriminate; try lia; intuition discriminate|]); destruct I.

(** A page that is answered and one that times out *)
Lemma create_witness : exists h s now st out,
  history same_order some_config (Entry now Tick st out :: h) s /\ timely (Entry now Tick st out :: h) /\
  (forall e n, In e h -> what e = Command (WritePageTimeout n) -> n <= 0x2000) /\
  (forall e a allow, In e h -> what e = Command (CreateConnection a allow) -> at_time e + 0x2000 * 625 <= now) /\
  (forall e, In e h -> audible (what e) /\ what e <> Command Reset /\ ~ answers you (what e)) /\
  creates you (Entry now Tick st out :: h) = 2%Z.
Proof.
  eexists _, _, _, _, _. split.
  - played [(0, Command (CreateConnection you 1)); (1000, Tick); (1000000, Tick); (1200000, from_you (PageResponse false)); (1300000, Command (Disconnect 0 19));
            (1400000, Tick); (1500000, Command (CreateConnection you 1)); (7000000, Tick)].
  - split; [cbn; intuition (subst; cbn; lia)|].
    split; [intros e n I; cbn in I; repeat (destruct I as [<-|I]; [discriminate|]); destruct I|].
    split; [intros e a n I; cbn in I; repeat (destruct I as [<-|I]; [first [discriminate|intros _; cbn; lia]|]); destruct I|].
    split; [intros e I; cbn in I; repeat (destruct I as [<-|I]; [cbn; intuition discriminate|]); destruct I|reflexivity].
Qed.

(** A link that is opened and closed, then one that stays open *)
Lemma links_witness : exists h s,
  history same_order some_config h s /\ (forall e, In e h -> audible (what e) /\ what e <> Command Reset /\ ~ absurd (what e)) /\
  announced 0 h = 1%Z /\ finished 0 h = 1%Z /\ has (acls s) 0 = false /\ announced 1 h = 1%Z /\ finished 1 h = 0%Z /\ has (acls s) 1 = true.
Proof.
  eexists _, _. split.
  - played [(0, Command (CreateConnection you 1)); (1000, Tick); (1000000, Tick); (1200000, from_you (PageResponse false)); (1300000, Command (Disconnect 0 19));
            (1400000, Tick); (1500000, Command (CreateConnection you 1)); (2500000, Tick); (2600000, from_you (PageResponse false))].
  - split; [intros e I; cbn in I; repeat (destruct I as [<-|I]; [cbn; intuition discriminate|]); destruct I|repeat split].
Qed.

(** The peer refuses a connection with the status of a success: the host is told of a link
    with handle 0 that does not exist *)
Lemma absurd_witness : exists h s,
  history same_order some_config h s /\ (forall e, In e h -> audible (what e) /\ what e <> Command Reset) /\
  announced 0 h = 1%Z /\ announced_next 0 s = 0%Z /\ finished 0 h = 0%Z /\ finished_next 0 s = 0%Z /\ acls s = [].
Proof.
  eexists _, _. split.
  - played [(0, Command (CreateConnection you 1)); (1000, Tick); (1000000, Tick); (1200000, from_you (PageReject 0)); (1300000, Tick)].
  - split; [intros e I; cbn in I; repeat (destruct I as [<-|I]; [cbn; intuition discriminate|]); destruct I|repeat split].
Qed.

(** The peer answers the first ping, then is silent *)
Lemma watch_witness : exists h s s' st out c,
  history same_order some_config h s /\ timely h /\ lookup (acls s) 0 = Some c /\ acl_peer c = you /\
  (exists e, In e h /\ received_from (address s) you e /\ at_time e = 3300000) /\
  (exists t st out h', h = Entry t Tick st out :: h' /\ t = 6300000) /\
  step same_order some_config 6310000 s Tick = Ok (s', st, out) /\ lookup (acls s') 0 = None.
Proof.
  eexists _, _, _, _, _, _. split.
  - played [(0, Command (CreateConnection you 1)); (1000, Tick); (1000000, Tick); (1200000, from_you (PageResponse false)); (1300000, Tick); (2750000, Tick); (3100000, Tick);
            (3300000, from_you PingResponse); (4200000, Tick); (4900000, Tick); (6300000, Tick)].
  - split; [cbn; intuition (subst; cbn; lia)|]. split; [reflexivity|]. split; [reflexivity|]. split.
    + eexists. split; [right; right; right; left; reflexivity|]. split; [split; auto|reflexivity].
    + split; [eexists _, _, _, _; split; reflexivity|]. split; [vm_compute; reflexivity|reflexivity].
Qed.

(** A device pages while the controller scans; the host accepts; both are told *)
Lemma request_witness : exists h s s1 s2 s3,
  history same_order some_config h s /\ page_scan_enable s = true /\ unmasked s 0x04 = true /\ page_scan s = None /\ ~ In you (peers s) /\
  step same_order some_config 2000 s (from_you (Page 0x20041c 1)) = Ok (s1, None, [Event (ConnectionRequest you 0x20041c LINK_ACL)]) /\
  paged_by you s1 = true /\ ~ In you (peers s1) /\ unmasked s1 0x03 = true /\
  step same_order some_config 3000 s1 (Command (AcceptConnection you false)) = Ok (s2, Some SUCCESS, []) /\
  step same_order some_config 4000 s2 Tick =
    Ok (s3, None, [Event (ConnectionComplete SUCCESS 0 you LINK_ACL); Sent (Air me you (PageResponse false))]).
Proof.
  eexists _, _, _, _, _. split; [played [(1000, Command (WriteScanEnable false true))]|]. split; [reflexivity|]. split; [reflexivity|]. split; [reflexivity|].
  split; [intros []|]. split; [vm_compute; reflexivity|]. split; [reflexivity|]. split; [intros []|]. split; [reflexivity|].
  split; [vm_compute; reflexivity|]. vm_compute. reflexivity.
Qed.

(** The host refuses the connection: the request stays, and a later page makes no request *)
Lemma refused_witness : exists h s r s1 s2,
  history same_order some_config h s /\ page_scan s = Some r /\
  step same_order some_config 3000 s (Command (RejectConnection you 0x0d)) = Ok (s1, Some SUCCESS, []) /\ page_scan s1 = Some r /\
  (forall b, step same_order some_config 9000 s1 (Receive 0 (Air b me (Page 0x20041c 1))) = Ok (s1, None, [])) /\
  acls s1 = [] /\ step same_order some_config 9000 s1 (Command (AcceptConnection you false)) = Ok (s2, Some SUCCESS, []) /\ peers s2 = [you].
Proof.
  eexists _, _, _, _, _. split; [played [(1000, Command (WriteScanEnable false true)); (2000, from_you (Page 0x20041c 1))]|]. split; [reflexivity|].
  split; [vm_compute; reflexivity|]. split; [reflexivity|]. split; [intros b; reflexivity|]. split; [reflexivity|]. split; [vm_compute; reflexivity|reflexivity].
Qed.

(** Two packets for the peer *)
Lemma data_witness : exists ops h s,
  play same_order some_config [] (new_bredr me) ops = Some (h, s) /\ timely h /\
  given same_order some_config (new_bredr me) ops = [Sent (Air me you (Acl 0 0 [1; 2])); Event (CompletedPackets 0 1); Sent (Air me you (Acl 1 0 [3])); Event (CompletedPackets 0 1)] /\
  data_sent h = given same_order some_config (new_bredr me) ops /\ fst (seen s) = [(0, you)].
Proof.
  exists [(1000, Command (WriteScanEnable false true)); (2000, from_you (Page 0x20041c 1)); (3000, Command (AcceptConnection you false));
          (3500, AclFromHost 0 0 0 [1; 2]); (3600, AclFromHost 0 1 0 [3]); (4000, Tick)].
  eexists _, _. split; [vm_compute; reflexivity|]. split; [cbn; intuition (subst; cbn; lia)|]. repeat split.
Qed.
