(** The BR/EDR controller: the connection requests of other devices, and the delivery of
    what is scheduled. *)
From Coq Require Import Permutation.
From Verif Require Import Prelude Table Sco Bredr BredrBase BredrInv BredrConn BredrSpec BredrRefine BredrTime BredrFrame BredrData.
Open Scope N_scope.

Section WithOrder.
Variable order : table sco_link -> table sco_link.
Variable cfg : config.
Hypothesis any_order : forall t, Permutation (order t) t.

(** * What is scheduled is done by the next tick *)
Lemma run_tasks_does : forall now limit t fuel s s' out, core s -> running now limit s -> In t (queue s) -> prompt (what_to_do t) = true ->
  run_tasks order now limit fuel s = Ok (s', out) -> In t (queue s') \/ incl (result_of (what_to_do t)) out.
Proof.
  intros now limit t. induction fuel as [|fuel IH]; cbn [run_tasks]; intros s s' out C R I P H; [injection H as <- <-; now left|].
  destruct (queue s) as [|u q] eqn:EQ; [destruct I|]. fold (eligible now limit u) in H.
  destruct (eligible now limit u) eqn:EL; [|injection H as <- <-; left; now rewrite EQ]. unbind H. injection H as <- <-.
  pose proof (core_run_job order _ _ _ _ _ _ C EQ E) as C'. destruct (running_job (fun _ => True) true order _ _ _ _ _ _ _ C R EQ EL E) as (R' & _).
  destruct I as [->|I].
  - right. intros x X. apply in_or_app. left. unfold run_job in E. destruct (what_to_do t); try destruct X as [<-|[]]; try discriminate P;
      try (injection E as <- <-; now left); destruct X.
  - assert (J : In t (queue b)).
    { unfold run_job in E. pose proof (core_pop u q s C EQ) as CP. destruct (what_to_do u); try (injection E as <- <-; exact I).
      - injection E as <- <-. cbn [reject_page fst transmit schedule queue with_queue with_next_id]. apply in_insert. now right.
      - unfold answering in E. unbind E. injection E as <- <-.
        apply (ext_keep _ _ _ _ _ (ext_check_link (fun _ => True) true order _ _ _ _ CP E1)); [exact I|]. now destruct (what_to_do t).
      - unfold silent in E. injection E as <- <-. cbn [queue with_queue]. apply in_insert. right. unfold send_sco.
        destruct (lookup (scos _) h); [cbn [transmit schedule queue with_queue with_next_id]; apply in_insert; right|]; exact I. }
    destruct (IH _ _ _ C' R' J P E0) as [X|X]; auto. right. intros x Y. apply in_or_app. right. auto.
Qed.
Theorem tick_does : forall h s now s' st out t, history order cfg h s -> timely h -> latest h <= now -> step order cfg now s Tick = Ok (s', st, out) ->
  In t (queue s) -> prompt (what_to_do t) = true -> incl (result_of (what_to_do t)) out.
Proof.
  intros h s now s' st out t H T L E I P. pose proof (core_history order cfg any_order _ _ H) as C. destruct (timed_history order cfg any_order _ _ H T) as (W & PU).
  cbn [step] in E. unbind E. injection E as <- <- <-. unfold tick in E0. unbind E0. injection E0 as <- <-.
  assert (R : running now (next_id s) s).
  { constructor; [|lia| |].
    - intros u J LE. pose proof (gq_fresh _ (core_queue s C) u J). lia.
    - intros k c E'. destruct (W k c E') as (B & X). split; auto. lia.
    - intros u J Q. specialize (PU u J Q). lia. }
  destruct (run_complete (fun _ => True) true order now (next_id s) _ _ _ _ C R (filter_shorter _ _ _) E) as (C1 & R1 & N1).
  destruct (run_tasks_does _ _ _ _ _ _ _ C R I P E) as [J|J].
  - exfalso. specialize (N1 t J). unfold eligible in N1. pose proof (gq_fresh _ (core_queue s C) t I) as F. specialize (PU t I P).
    assert (A1 : due t <=? now = true) by (apply N.leb_le; lia). assert (A2 : ident t <? next_id s = true) by now apply N.ltb_lt. rewrite A1, A2 in N1. discriminate.
  - intros x X. apply in_or_app. left. auto.
Qed.

(** * Requests *)
Definition requests (e : event) : Prop := exists a cls, e = ConnectionRequest a cls LINK_ACL.

Definition usual_queue (s : bredr) : Prop := forall t, In t (queue s) -> usual_job true (what_to_do t) = true.
Lemma quiet_usual : forall j, quiet_job j = true -> usual_job true j = true.
Proof. intros j. destruct j as [p|e| | | |]; cbn; auto; [now destruct (is_acl p)|]. destruct e; auto. Qed.
Lemma usual_kin : forall s s', usual_queue s -> kin s s' -> usual_queue s'.
Proof. intros s s' U K t I. destruct (K t I) as [J|J]; [now apply U|now apply quiet_usual]. Qed.
Lemma usual_run_tasks : forall now limit fuel s s' out, usual_queue s -> run_tasks order now limit fuel s = Ok (s', out) ->
  usual_queue s' /\ forall e, In (Event e) out -> scheduled_event e = true \/ exists st h n, e = PacketTypeChanged st h n.
Proof.
  intros now limit. induction fuel as [|fuel IH]; cbn [run_tasks]; intros s s' out U H; [injection H as <- <-; split; auto; intros e []|].
  destruct (queue s) as [|t q] eqn:EQ; [injection H as <- <-; split; auto; intros e []|]. destruct (_ && _); [|injection H as <- <-; split; auto; intros e []].
  unbind H. injection H as <- <-.
  assert (UP : usual_queue (with_queue q s)) by (intros u I; apply U; rewrite EQ; now right).
  assert (X : usual_queue b /\ forall e, In (Event e) l -> scheduled_event e = true \/ exists st h n, e = PacketTypeChanged st h n).
  { pose proof (U t) as UT. rewrite EQ in UT. specialize (UT (or_introl eq_refl)). unfold run_job in E. destruct (what_to_do t) eqn:J.
    - injection E as <- <-. split; auto. intros e [X|[]]; discriminate.
    - injection E as <- <-. split; auto. intros e' [X|[]]. injection X as <-. left. cbn in UT. now destruct e.
    - injection E as <- <-. split; auto. intros e' X. unfold said in X. destruct (unmasked _ _); [|destruct X]. destruct X as [X|[]]. injection X as <-. right. eauto.
    - injection E as <- <-. split; [eapply usual_kin; [exact UP|]; apply kin_schedule; [reflexivity|apply kin_refl]|].
      intros e' X. unfold said in X. destruct (unmasked _ _); [|destruct X]. destruct X as [X|[]]. injection X as <-. now left.
    - unfold answering in E. unbind E. injection E as <- <-. split; [|intros e []]. eapply usual_kin; [exact UP|]. eapply kin_check_link; eassumption.
    - unfold silent in E. injection E as <- <-. split; [|intros e []]. intros u I. cbn [queue with_queue] in I. apply in_insert in I. destruct I as [->|I]; [reflexivity|].
      unfold send_sco in I. destruct (lookup (scos _) h); [|now apply UP]. cbn [transmit schedule queue with_queue with_next_id] in I. apply in_insert in I.
      destruct I as [->|I]; [reflexivity|now apply UP]. }
  destruct X as (U1 & O1). destruct (IH _ _ _ U1 E0) as (U2 & O2). split; auto. intros e I. apply in_app_or in I. destruct I; auto.
Qed.
Lemma tick_events : forall now s s' out, usual_queue s -> tick order now s = Ok (s', out) ->
  usual_queue s' /\ forall e, In (Event e) out -> scheduled_event e = true \/ (exists st h n, e = PacketTypeChanged st h n) \/ e = InquiryComplete SUCCESS.
Proof.
  intros now s s' out U H. unfold tick in H. unbind H. injection H as <- <-. destruct (usual_run_tasks _ _ _ _ _ _ U E) as (U1 & O1).
  pose proof (kin_do_paging now b) as K1. rewrite E0 in K1. pose proof (kin_do_inquiry now b0) as K2. rewrite E1 in K2.
  split; [eapply usual_kin; [eapply usual_kin; [exact U1|exact K1]|exact K2]|]. intros e I. apply in_app_or in I. destruct I as [I|I]; [destruct (O1 e I); auto|].
  apply in_app_or in I. destruct I as [I|I].
  - unfold do_paging in E0. destruct (page b); [|injection E0 as <- <-; destruct I]. destruct (_ <=? _); [injection E0 as <- <-; destruct I as [I|[]]; injection I as <-; now left|].
    destruct (_ && _); injection E0 as <- <-; destruct I.
  - unfold do_inquiry in E1. destruct (inquiry b0); [|injection E1 as <- <-; destruct I]. destruct (_ <=? _).
    + injection E1 as <- <-. unfold said in I. destruct (unmasked _ _); [|destruct I]. destruct I as [I|[]]. injection I as <-. auto.
    + destruct (_ <=? _); injection E1 as <- <-; destruct I.
Qed.
Theorem usual_history : forall h s, history order cfg h s -> usual_queue s.
Proof.
  intros h s H. induction H as [a|h s now o s' st out H IH E]; [intros t []|].
  assert (TK : o = Tick \/ o <> Tick) by (destruct o; auto; right; discriminate). destruct TK as [->|NT].
  - cbn [step] in E. unbind E. injection E as <- <- <-. eapply tick_events; eassumption.
  - pose proof (core_history order cfg any_order _ _ H) as C.
    pose proof (ext_step (fun _ => True) true order cfg _ _ _ _ _ _ C NT (fun _ _ _ _ _ => eq_refl) (fun _ _ _ => Logic.I) (fun _ _ _ _ => Logic.I) E) as A.
    intros t I. destruct (ext_kind _ _ _ _ _ A t I) as [J|J]; auto.
Qed.

Lemma command_no_event : forall now s c st s' out e, run_command order cfg now s c = Ok (st, s', out) -> ~ In (Event e) out.
Proof.
  intros now s c st s' out e H I. destruct c; cbn [run_command] in H; unfold quiet in H;
    try (injection H as <- <- <-; destruct I);
    try (unbind H; injection H as <- <- <-; destruct I).
  - destruct (enhanced_ok p e0); [|injection H as <- <- <-; destruct I]. unbind H. injection H as <- <- <-. destruct I.
  - destruct (enhanced_ok p e0); [|injection H as <- <- <-; destruct I]. unbind H. injection H as <- <- <-. destruct I.
  - destruct (lookup (acls s) h); injection H as <- <- <-; [|destruct I]. destruct I as [I|[]]. discriminate.
  - destruct (7 <? n); injection H as <- <- <-; destruct I.
Qed.

(** An ACL connection request comes from a page that arrives while the controller scans, no
    other request is pending and there is no link with the device *)
Lemma dispatch_request : forall now rssi p s s' out a cls, dispatch order cfg now rssi p s = Ok (s', out) -> In (Event (ConnectionRequest a cls LINK_ACL)) out ->
  exists allow, source p = a /\ content p = Page cls allow /\ page_scan_enable s = true /\ unmasked s 0x04 = true /\ page_scan s = None /\ acl_of a s = None /\
    out = [Event (ConnectionRequest a cls LINK_ACL)] /\ page_scan s' = Some (ScanState a allow).
Proof.
  intros now rssi p s s' out a cls H I. unfold dispatch in H.
  assert (SAID : forall s c e, e <> ConnectionRequest a cls LINK_ACL -> ~ In (Event (ConnectionRequest a cls LINK_ACL)) (said s c e)).
  { intros x c e N J. unfold said in J. destruct (unmasked x c); [|destruct J]. destruct J as [J|[]]. now injection J. }
  assert (ABOUT : forall b c e, (forall k, e k <> ConnectionRequest a cls LINK_ACL) -> ~ In (Event (ConnectionRequest a cls LINK_ACL)) (receive_about b c e s)).
  { intros b c e X. unfold receive_about. destruct (acl_of b s) as [[h d]|]; [apply SAID, X|intros []]. }
  destruct (content p); unfold silent, answering in H;
    try (injection H as <- <-; destruct I; fail);
    try (injection H as <- <-; now apply SAID in I);
    try (injection H as <- <-; now apply ABOUT in I).
  - injection H as <- <-. unfold receive_acl in I. destruct (acl_of _ _) as [[h c]|]; [|destruct I]. destruct I as [I|[]]. discriminate.
  - injection H as <- <-. unfold receive_voice in I. destruct (sco_of _ _ _) as [[h c]|]; [|destruct I]. destruct I as [I|[]]. discriminate.
  - unbind H. injection H as <- <-. destruct I.
  - injection H as <- <-. unfold receive_inquiry_answer in I.
    destruct (mode =? 0); [now apply SAID in I|]. destruct (mode =? 1); [now apply SAID in I|]. destruct (mode =? 2); [|destruct I]. destruct I as [I|[]]. discriminate.
  - injection H as H. unfold receive_page in H. destruct (page_scan_enable s) eqn:PE; [|injection H as <- <-; destruct I]. cbn [negb] in H.
    destruct (unmasked s 4) eqn:UM; [|injection H as <- <-; destruct I]. cbn [negb] in H. unfold has_acl_with in H.
    destruct (acl_of (source p) s) eqn:AO; [injection H as <- <-; destruct I|]. destruct (page_scan s); injection H as <- <-; [destruct I|].
    destruct I as [I|[]]. injection I as <- <-. exists allow_role_switch. repeat split; auto.
  - unfold receive_page_response in H. destruct (paging (source p) s); [|injection H as <- <-; destruct I]. unbind H. injection H as <- <-.
    apply in_app_or in I. destruct I as [I|I]; [|now apply SAID in I].
    match type of I with context [if role_eqb ?x ?y then _ else _] => destruct (role_eqb x y) end; [now apply SAID in I|destruct I].
  - injection H as H. unfold receive_page_reject in H. destruct (paging (source p) s); injection H as <- <-; [now apply SAID in I|destruct I].
  - unbind H. injection H as <- <-. destruct I.
  - unfold receive_sco_request in H. destruct (has_pending_sco order (source p) s); [injection H as <- <-; destruct I|]. unbind H. injection H as <- <-.
    destruct I as [I|[]]. destruct (is_extended p0); discriminate.
  - unfold receive_sco_response in H. destruct (sco_of order (source p) s) as [[h c]|]; [|injection H as <- <-; destruct I]. destruct (st =? SUCCESS).
    + unbind H. injection H as <- <-. destruct I as [I|[]]. destruct (sco_legacy c); discriminate.
    + no_stream H. injection H as <- <-. destruct I as [I|[]]. destruct (sco_legacy c); discriminate.
Qed.
Lemma heard_peers : forall now a s, core s -> peers (heard_from now a s) = peers s.
Proof. intros now a s C. now apply heard_alike. Qed.
Theorem request_origin : forall h s now o s' st out a cls, history order cfg h s -> step order cfg now s o = Ok (s', st, out) ->
  In (Event (ConnectionRequest a cls LINK_ACL)) out ->
  exists rssi p allow, o = Receive rssi p /\ for_me p s = true /\ source p = a /\ content p = Page cls allow /\
    page_scan_enable s = true /\ page_scan s = None /\ ~ In a (peers s) /\ out = [Event (ConnectionRequest a cls LINK_ACL)] /\
    page_scan s' = Some (ScanState a allow).
Proof.
  intros h s now o s' st out a cls H E I. pose proof (core_history order cfg any_order _ _ H) as C.
  destruct o as [c|k b bc d|k d|rssi p|]; cbn [step] in E; unbind E; injection E as <- <- <-.
  - now apply (command_no_event _ _ _ _ _ _ _ E0) in I.
  - destruct I.
  - destruct I.
  - unfold receive in E0. destruct (for_me p s) eqn:FM; [|injection E0 as <- <-; destruct I].
    destruct (keep_heard now (source p) s) as (K1 & K2 & _). unfold settings in K1. injection K1 as _ K1 _ _ _ _ _ _ _ _ _ _ _.
    destruct (dispatch_request _ _ _ _ _ _ _ _ E0 I) as (allow & SA & CO & PE & _ & PS & AO & OUT & PS').
    exists rssi, p, allow. rewrite <- K1, <- K2. apply acl_of_peers in AO. rewrite heard_peers in AO by exact C. repeat (split; auto).
  - exfalso. destruct (tick_events _ _ _ _ (usual_history _ _ H) E0) as (_ & X). destruct (X _ I) as [Y|[(? & ? & ? & Y)|Y]]; discriminate.
Qed.
(** And every such page makes one request, if the host has not masked the event *)
Theorem page_requests : forall h s now rssi p cls allow, history order cfg h s -> for_me p s = true -> content p = Page cls allow ->
  page_scan_enable s = true -> unmasked s 0x04 = true -> page_scan s = None -> ~ In (source p) (peers s) ->
  exists s', step order cfg now s (Receive rssi p) = Ok (s', None, [Event (ConnectionRequest (source p) cls LINK_ACL)]) /\
    page_scan s' = Some (ScanState (source p) allow).
Proof.
  intros h s now rssi p cls allow H FM CO PE UM PS NP. pose proof (core_history order cfg any_order _ _ H) as C.
  cbn [step]. unfold receive. rewrite FM. unfold dispatch. rewrite CO. unfold receive_page.
  destruct (keep_heard now (source p) s) as (K1 & K2 & _). unfold settings in K1. injection K1 as _ K1 _ _ _ KM _ _ _ _ _ _ _.
  assert (U' : unmasked (heard_from now (source p) s) 4 = true) by (unfold unmasked; now rewrite KM).
  assert (HA : acl_of (source p) (heard_from now (source p) s) = None) by (apply acl_of_peers; now rewrite heard_peers).
  rewrite K1, PE, U'. cbn [negb]. unfold has_acl_with. rewrite HA, K2, PS. cbn [bind]. eexists. split; reflexivity.
Qed.

(** * A request stays until it is accepted *)
Theorem pending_blocks : forall ops h s h' s' r, history order cfg h s -> page_scan s = Some r -> play order cfg [] s ops = Some (h', s') ->
  (forall now o, In (now, o) ops -> o <> Command Reset /\ forall try, o <> Command (AcceptConnection (scan_peer r) try)) ->
  page_scan s' = Some r /\ forall e a cls, In e h' -> ~ In (Event (ConnectionRequest a cls LINK_ACL)) (sent e).
Proof.
  assert (GEN : forall ops h s k h' s' r, history order cfg h s -> page_scan s = Some r -> play order cfg k s ops = Some (h', s') ->
    (forall now o, In (now, o) ops -> o <> Command Reset /\ forall try, o <> Command (AcceptConnection (scan_peer r) try)) ->
    (forall e a cls, In e k -> ~ In (Event (ConnectionRequest a cls LINK_ACL)) (sent e)) ->
    page_scan s' = Some r /\ forall e a cls, In e h' -> ~ In (Event (ConnectionRequest a cls LINK_ACL)) (sent e)).
  { induction ops as [|[now o] ops IH]; intros h s k h' s' r H PS P N Q; cbn [play] in P; [injection P as <- <-; now split|].
    destruct (step order cfg now s o) as [[[s1 st] out]| | |] eqn:E; try discriminate.
    assert (PS1 : page_scan s1 = Some r).
    { destruct (N now o) as (N1 & N2); [now left|].
      destruct (step_request order cfg _ _ _ _ _ _ (core_history order cfg any_order _ _ H) E) as [X|[(a & try & -> & PB & X)|[(rssi & p & -> & _ & X)|X]]]; try congruence.
      unfold paged_by in PB. rewrite PS in PB. apply list_eqb_eq in PB. subst a. now elim (N2 try). }
    eapply (IH (Entry now o st out :: h)); [eapply next_step; eassumption|exact PS1|exact P|intros n o' J; apply (N n); now right|].
    intros e a cls [<-|J]; [|now apply Q]. cbn [sent]. intros J.
    destruct (request_origin _ _ _ _ _ _ _ _ _ H E J) as (_ & _ & _ & _ & _ & _ & _ & _ & X & _). congruence. }
  intros ops h s h' s' r H PS P N. eapply GEN; eauto.
Qed.
(** Refusing a connection does not end the request *)
Theorem rejected_stays : forall h s now a reason s' out, history order cfg h s ->
  step order cfg now s (Command (RejectConnection a reason)) = Ok (s', Some SUCCESS, out) ->
  exists r, page_scan s' = Some r /\ scan_peer r = a.
Proof.
  intros h s now a reason s' out H E. cbn [step run_command] in E. unfold quiet, reject_connection, paged_by in E.
  destruct (page_scan s) as [r|] eqn:PS; [|discriminate E]. destruct (list_eqb (scan_peer r) a) eqn:A; [|discriminate E].
  cbn [bind fst snd] in E. injection E as <- <-. exists r. split; [exact PS|]. now apply list_eqb_eq.
Qed.

(** * Delivery *)
(** What is scheduled is sent in one of the steps up to the next tick *)
Theorem delivered : forall ops h s h' s' t, history order cfg h s -> In t (queue s) -> prompt (what_to_do t) = true ->
  play order cfg h s ops = Some (h', s') -> timely h' -> (exists now, In (now, Tick) ops) ->
  exists n, h' = n ++ h /\ exists e, In e n /\ incl (result_of (what_to_do t)) (sent e).
Proof.
  induction ops as [|[now o] ops IH]; intros h s h' s' t H I P PL T (n0 & IN); [destruct IN|]. cbn [play] in PL.
  destruct (step order cfg now s o) as [[[s1 st] out]| | |] eqn:E; try discriminate.
  pose proof (next_step order cfg h s now o s1 st out H E) as H1.
  destruct (play_timely order cfg _ _ _ _ _ PL T) as (k & HK & (T1 & T2)).
  assert (L : latest h <= now). { destruct h as [|e h0]; cbn [latest]; [lia|]. apply (T1 e). now left. }
  assert (TK : o = Tick \/ o <> Tick) by (destruct o; auto; right; discriminate). destruct TK as [->|NT].
  - exists (k ++ [Entry now Tick st out]). split; [now rewrite <- app_assoc|]. exists (Entry now Tick st out). split; [apply in_or_app; right; now left|].
    exact (tick_does _ _ _ _ _ _ _ H T2 L E I P).
  - assert (I1 : In t (queue s1)).
    { apply (ext_keep _ _ _ _ _ (ext_step (fun _ => True) true order cfg now s o s1 st out (core_history order cfg any_order _ _ H) NT (fun _ _ _ _ _ => eq_refl) (fun _ _ _ => Logic.I) (fun _ _ _ _ => Logic.I) E)); [exact I|].
      now destruct (what_to_do t). }
    destruct (IH _ _ _ _ _ H1 I1 P PL T) as (m & -> & e & J & X).
    { destruct IN as [IN|IN]; [elim NT; congruence|]. eauto. }
    exists (m ++ [Entry now o st out]). split; [now rewrite <- app_assoc|]. exists e. split; [apply in_or_app; now left|exact X].
Qed.

(** * Accepting *)
(** The link exists at once; the peer and the host are told by the next tick *)
Lemma accept_queued : forall h s now a try s' st out, history order cfg h s ->
  step order cfg now s (Command (AcceptConnection a try)) = Ok (s', st, out) -> paged_by a s = true -> ~ In a (peers s) -> unmasked s 0x03 = true ->
  st = Some SUCCESS /\ page_scan s' = None /\
  exists k c, lookup (acls s') k = Some c /\ acl_peer c = a /\ lookup (acls s) k = None /\
    (exists t, In t (queue s') /\ what_to_do t = Transmit (Air (address s) a (PageResponse try))) /\
    (exists t, In t (queue s') /\ what_to_do t = Tell (ConnectionComplete SUCCESS k a LINK_ACL)).
Proof.
  intros h s now a try s' st out H E PB NP HE. pose proof (core_history order cfg any_order _ _ H) as C. cbn [step run_command] in E. unbind E.
  injection E as <- <- <-. unbind E0. unfold quiet in E0. cbn [fst snd] in E0. injection E0 as <- <- <-. unfold accept_connection in E. rewrite PB in E.
  assert (HA : has_acl_with a s = false). { unfold has_acl_with. apply acl_of_peers in NP. now rewrite NP. }
  rewrite HA in E. fold (accepted_role s try) in E. generalize dependent (accepted_role s try). intros r E. unbind E. injection E as <- <-.
  destruct (open_effect order _ _ _ _ _ _ _ _ C E0 E1) as (N & R & l & ->). apply add_link_effect in E2. destruct E2 as (L & ->).
  match type of L with lenN (links ?x) < 7 => set (x0 := x) in * end.
  assert (X0 : address x0 = address s /\ acls x0 = acls s ++ [(n, AclLink a r (default_policy s) now)] /\ unmasked x0 3 = true).
  { subst x0. destruct (_ && _); fields; auto. }
  clearbody x0. destruct X0 as (X1 & X2 & X3).
  change (unmasked (with_links (links x0 ++ filter named [a]) x0) 3) with (unmasked x0 3). rewrite X3.
  assert (LK : lookup (acls x0) n = Some (AclLink a r (default_policy s) now)) by (rewrite X2; now apply lookup_last).
  split; [reflexivity|]. split; [reflexivity|]. exists n, (AclLink a r (default_policy s) now).
  match goal with |- context [if ?b then with_page None ?x else ?x] => destruct b end; fields.
  all: split; [exact LK|]; split; [reflexivity|]; split; [now apply lookup_none|]; split.
  all: try (eexists; split; [apply in_insert; right; apply in_insert; left; reflexivity|reflexivity]).
  all: eexists; split; [apply in_insert; left; reflexivity|]; cbn [what_to_do]; unfold to_peer; fields; now rewrite X1.
Qed.
Theorem accept_told : forall h s now a try s' st out ops h' s'' now', history order cfg h s ->
  step order cfg now s (Command (AcceptConnection a try)) = Ok (s', st, out) -> paged_by a s = true -> ~ In a (peers s) -> unmasked s 0x03 = true ->
  st = Some SUCCESS /\ page_scan s' = None /\ In a (peers s') /\
  (play order cfg (Entry now (Command (AcceptConnection a try)) st out :: h) s' ops = Some (h', s'') -> timely h' -> In (now', Tick) ops ->
   exists k n, In (k, a) (fst (seen s')) /\ h' = n ++ Entry now (Command (AcceptConnection a try)) st out :: h /\
     (exists e, In e n /\ In (Sent (Air (address s) a (PageResponse try))) (sent e)) /\
     (exists e, In e n /\ In (Event (ConnectionComplete SUCCESS k a LINK_ACL)) (sent e))).
Proof.
  intros h s now a try s' st out ops h' s'' now' H E PB NP U. pose proof (next_step order cfg h s now _ s' st out H E) as H1.
  destruct (accept_queued _ _ _ _ _ _ _ _ H E PB NP U) as (-> & PS & k & c & L & A & _ & (t1 & I1 & W1) & t2 & I2 & W2).
  split; auto. split; auto. apply lookup_pair in L. split; [apply in_map_iff; exists (k, c); auto|]. intros P T TK.
  destruct (delivered ops _ _ h' s'' t1 H1 I1) with (2 := P) as (n & EN & e1 & J1 & X1); [now rewrite W1|exact T|eauto|].
  destruct (delivered ops _ _ h' s'' t2 H1 I2) with (2 := P) as (n' & EN' & e2 & J2 & X2); [now rewrite W2|exact T|eauto|].
  assert (n' = n) by (rewrite EN in EN'; now apply app_inv_tail in EN'). subst n'.
  exists k, n. split; [apply in_map_iff; exists (k, c); now rewrite <- A|]. split; [exact EN|]. split.
  - exists e1. split; auto. apply X1. rewrite W1. now left.
  - exists e2. split; auto. apply X2. rewrite W2. now left.
Qed.
(** A second acceptance fails *)
Theorem accept_unknown : forall now a try s, paged_by a s = false -> sco_of order a s = None ->
  step order cfg now s (Command (AcceptConnection a try)) = Ok (s, Some UNKNOWN_CONNECTION, []).
Proof. intros now a try s PB SO. cbn [step run_command]. unfold accept_connection. now rewrite PB, SO. Qed.

(** * Received data *)
Lemma nodup_snd : forall (t : list (N * addr)) k k' a, NoDup (map snd t) -> In (k, a) t -> In (k', a) t -> k = k'.
Proof.
  induction t as [|[x b] t IH]; intros k k' a ND I J; [destruct I|]. cbn [map snd] in ND. inversion ND as [|? ? N1 N2]; subst.
  assert (X : forall k0, In (k0, a) t -> In a (map snd t)) by (intros k0 Q; apply in_map_iff; exists (k0, a); auto).
  destruct I as [I|I]; destruct J as [J|J]; [congruence|injection I as -> ->; now elim N1; apply (X k')|injection J as -> ->; now elim N1; apply (X k)|now apply (IH k k' a)].
Qed.
Theorem acl_received : forall h s now rssi p b bc d, history order cfg h s -> for_me p s = true -> content p = Acl b bc d ->
  exists s' out, step order cfg now s (Receive rssi p) = Ok (s', None, out) /\ seen s' = seen s /\
    (forall k, In (k, source p) (fst (seen s)) -> out = [AclToHost k (if b =? 0 then 2 else b) bc d]) /\
    (~ In (source p) (peers s) -> out = []).
Proof.
  intros h s now rssi p b bc d H FM CO. pose proof (core_history order cfg any_order _ _ H) as C.
  cbn [step]. unfold receive. rewrite FM. unfold dispatch. rewrite CO. cbn [bind]. eexists _, _. split; [reflexivity|].
  destruct (heard_calm now (source p) s C) as (SE & _). split; [exact SE|]. unfold receive_acl.
  destruct (acl_of (source p) (heard_from now (source p) s)) as [[k c]|] eqn:AO.
  - apply acl_of_some in AO. destruct AO as (I & A).
    assert (J : In (k, source p) (fst (seen s))). { rewrite <- SE. cbn [seen fst]. apply in_map_iff. exists (k, c). cbn [fst snd]. now rewrite A. }
    split.
    + intros k' J'. f_equal. f_equal. pose proof (conn_nodup _ (conn_history order cfg any_order _ _ H)) as ND.
      assert (ND' : NoDup (map snd (fst (seen s)))) by (cbn [seen fst]; rewrite map_map; exact ND).
      exact (nodup_snd _ _ _ _ ND' J J').
    + intros N. elim N. assert (Q : peers s = map snd (fst (seen s))) by (cbn [seen fst]; now rewrite map_map). rewrite Q.
      apply in_map_iff. exists (k, source p). auto.
  - apply acl_of_peers in AO. rewrite heard_peers in AO by exact C. split; [|reflexivity]. intros k J. elim AO.
    assert (Q : peers s = map snd (fst (seen s))) by (cbn [seen fst]; now rewrite map_map). rewrite Q. apply in_map_iff. exists (k, source p). auto.
Qed.

(** * The links have different handles and different peers *)
Theorem one_link : forall h s, history order cfg h s ->
  NoDup (handles (seen s)) /\ NoDup (partners (seen s)) /\ forall k, In k (handles (seen s)) -> k <= 255.
Proof.
  intros h s H. destruct (core_acl _ (core_history order cfg any_order _ _ H)) as [ND RA _].
  unfold handles, partners, seen. cbn [fst]. rewrite !map_map. cbn [fst snd]. split; [exact ND|].
  split; [exact (conn_nodup _ (conn_history order cfg any_order _ _ H))|]. intros k I. destruct (RA k I). assumption.
Qed.
End WithOrder.
