(** The BR/EDR controller: what the steps leave alone, the settings of the host in
    particular. *)
From Coq Require Import Permutation.
From Verif Require Import Prelude Table Sco Bredr BredrBase BredrInv BredrConn.
From Verif Require Handles HandlesProofs.
Import Handles(get_unused_handle, kAclRangeStart, kAclRangeEnd, kScoRangeStart, kScoRangeEnd).
Open Scope N_scope.

(** What the host sets *)
Definition settings (s : bredr) :=
  (address s, page_scan_enable s, inquiry_scan_enable s, page_timeout s, default_policy s, mask s,
   (iac s, class s, name s, eir s, inquiry_mode s, host_features s, voice s)).
Definition keep (s s' : bredr) : Prop := settings s' = settings s /\ page_scan s' = page_scan s /\ inquiry s' = inquiry s.
Lemma keep_refl : forall s, keep s s.
Proof. intros s. repeat split. Qed.
Lemma keep_trans : forall a b c, keep a b -> keep b c -> keep a c.
Proof. unfold keep. intuition congruence. Qed.
Lemma keep_same : forall s0 s s', settings s' = settings s -> page_scan s' = page_scan s -> inquiry s' = inquiry s -> keep s0 s -> keep s0 s'.
Proof. unfold keep. intuition congruence. Qed.
Lemma keep_stop_stream : forall c s0 s, keep s0 s -> keep s0 (stop_stream c s).
Proof. intros c s0 s A. unfold stop_stream. destruct (sco_stream c); auto. Qed.
Lemma keep_close_sco : forall h s0 s, keep s0 s -> keep s0 (close_sco h s).
Proof.
  intros h s0 s A. unfold close_sco. destruct (lookup (scos s) h) as [c|]; auto. cbv zeta.
  apply (keep_same s0 (stop_stream c s)); [reflexivity..|]. now apply keep_stop_stream.
Qed.
Lemma keep_cancel_sco : forall order a s0 s, keep s0 s -> keep s0 (cancel_sco order a s).
Proof. intros order a s0 s A. unfold cancel_sco. destruct (sco_of order a s) as [[h c]|]; auto. Qed.
Lemma keep_tell_disconnection : forall now h r s0 s, keep s0 s -> keep s0 (tell_disconnection now h r s).
Proof. intros now h r s0 s A. unfold tell_disconnection. destruct (unmasked s 5); auto. Qed.
Ltac keep_step :=
  match goal with
  | |- keep ?x ?x => apply keep_refl
  | H : keep ?x ?y |- keep ?x ?y => exact H
  | |- keep ?x (schedule _ _ ?y) => apply (keep_same x y); [reflexivity..|]
  | |- keep ?x (transmit _ _ ?y) => apply (keep_same x y); [reflexivity..|]
  | |- keep ?x (tell _ _ ?y) => apply (keep_same x y); [reflexivity..|]
  | |- keep ?x (sco_answer _ _ _ _ ?y) => apply (keep_same x y); [reflexivity..|]
  | |- keep ?x (tell_disconnection _ _ _ ?y) => apply keep_tell_disconnection
  | |- keep ?x (close_sco _ _) => apply keep_close_sco
  | |- keep ?x (cancel_sco _ _ _) => apply keep_cancel_sco
  | |- keep ?x (with_acls _ ?y) => apply (keep_same x y); [reflexivity..|]
  | |- keep ?x (with_last_acl _ ?y) => apply (keep_same x y); [reflexivity..|]
  | |- keep ?x (with_scos _ ?y) => apply (keep_same x y); [reflexivity..|]
  | |- keep ?x (with_last_sco _ ?y) => apply (keep_same x y); [reflexivity..|]
  | |- keep ?x (with_links _ ?y) => apply (keep_same x y); [reflexivity..|]
  | |- keep ?x (with_queue _ ?y) => apply (keep_same x y); [reflexivity..|]
  | |- keep ?x (with_page _ ?y) => apply (keep_same x y); [reflexivity..|]
  | |- keep ?x (if ?b then _ else _) => destruct b
  | |- keep ?x (fst (if ?b then _ else _)) => destruct b
  | |- keep ?x (snd (if ?b then _ else _)) => destruct b
  | |- keep ?x (snd (match ?b with None => _ | Some _ => _ end)) => destruct b
  | |- keep ?x (fst (match ?b with None => _ | Some _ => _ end)) => destruct b
  | |- keep ?x (match ?b with None => _ | Some _ => _ end) => destruct b
  | |- keep ?x (let (_, _) := ?b in _) => destruct b
  end.
Ltac keep_tac := cbv zeta; cbn [fst snd]; repeat (keep_step; cbv zeta; cbn [fst snd]).

Section WithOrder.
Variable order : table sco_link -> table sco_link.
Variable cfg : config.
Hypothesis any_order : forall t, Permutation (order t) t.

Lemma keep_close_acl : forall h s0 s s', keep s0 s -> close_acl order h s = Ok s' -> keep s0 s'.
Proof.
  intros h s0 s s' A. unfold close_acl. destruct (lookup (acls s) h) as [c|]; [|intros [= <-]; keep_tac].
  destruct (sco_of order (acl_peer c) s); [discriminate|]. intros [= <-]. keep_tac.
Qed.
Lemma keep_disconnect : forall now h r r' s st s', disconnect order now h r r' s = Ok (st, s') -> keep s s'.
Proof.
  intros now h r r' s st s'. unfold disconnect. destruct (lookup (scos s) h) as [c|].
  - intros [= <- <-]. keep_tac.
  - destruct (lookup (acls s) h) as [c|]; [|intros [= <- <-]; keep_tac]. intros H. unbind H. injection H as <- <-.
    apply remove_link_effect in E0. destruct E0 as (_ & ->). keep_tac. eapply keep_close_acl; [|eassumption]. keep_tac.
Qed.
Lemma keep_check_link : forall now h s s', check_link order now h s = Ok s' -> keep s s'.
Proof.
  intros now h s s'. unfold check_link. destruct (lookup (acls s) h) as [c|]; [|intros [= <-]; keep_tac].
  destruct (_ <? _); [|destruct (_ <? _)].
  - intros H. unbind H. injection H as <-. eapply keep_disconnect; eassumption.
  - intros [= <-]. keep_tac.
  - intros [= <-]. keep_tac.
Qed.
Lemma keep_create_acl : forall now a r p s h s', create_acl now a r p s = Ok (h, s') -> keep s s'.
Proof. intros now a r p s h s'. unfold create_acl. destruct (get_unused_handle _ _ _ _) as [[h' l]|]; [|discriminate]. intros [= <- <-]. keep_tac. Qed.
Lemma keep_open_stream : forall now h s0 s s', keep s0 s -> open_stream order now h s = Ok s' -> keep s0 s'.
Proof.
  intros now h s0 s s' A. unfold open_stream. destruct (lookup (scos s) h) as [c|]; [|intros [= <-]; keep_tac].
  destruct (sco_stream c); [discriminate|]. destruct (sco_spoofed c); [|intros [= <-]; keep_tac].
  destruct (sco_of order (sco_peer c) s) as [[h' c']|]; [|discriminate]. unfold start_stream. intros [= <-]. keep_tac.
Qed.
Lemma keep_accept_negotiated : forall now h c p s l s', accept_negotiated order now h c p s = Ok (l, s') -> keep s s'.
Proof.
  intros now h c p s l s'. unfold accept_negotiated. destruct (negotiate _ _ _) as [k|]; [|intros [= <- <-]; keep_tac].
  intros H. unbind H. injection H as <- <-. eapply keep_open_stream; [|exact E]. keep_tac.
Qed.
Lemma keep_create_sco : forall a p st sp leg s h s', create_sco a p st sp leg s = Ok (h, s') -> keep s s'.
Proof.
  intros a p st sp leg s h s'. unfold create_sco. destruct (get_unused_handle _ _ _ _) as [[h' l]|]; [|discriminate]. intros [= <- <-]. keep_tac.
Qed.
Lemma keep_setup_sync : forall now h p sp leg s st s', setup_sync order now h p sp leg s = Ok (st, s') -> keep s s'.
Proof.
  intros now h p sp leg s st s'. unfold setup_sync. destruct (lookup (acls s) h) as [c|]; [|intros [= <- <-]; keep_tac].
  destruct (has_pending_sco order (acl_peer c) s); [intros [= <- <-]; keep_tac|]. intros H. unbind H. injection H as <- <-.
  apply keep_create_sco in E. keep_tac.
Qed.
Lemma keep_accept_sync : forall now a p s st s', accept_sync order now a p s = Ok (st, s') -> keep s s'.
Proof.
  intros now a p s st s'. unfold accept_sync. destruct (sco_of order a s) as [[h c]|]; [|intros [= <- <-]; keep_tac].
  destruct (is_pending c); [|intros [= <- <-]; keep_tac]. intros H. unbind H. injection H as <- <-.
  apply keep_accept_negotiated in E. destruct o; keep_tac.
Qed.
(** Accepting a connection ends the request *)
Lemma accept_frame : forall now a try s st s', accept_connection order now a try s = Ok (st, s') ->
  keep s s' \/ (paged_by a s = true /\ settings s' = settings s /\ page_scan s' = None /\ inquiry s' = inquiry s).
Proof.
  intros now a try s st s'. unfold accept_connection. destruct (paged_by a s).
  - destruct (has_acl_with a s); [intros [= <- <-]; left; keep_tac|]. intros H. unbind H. injection H as <- <-.
    apply keep_create_acl in E. apply keep_check_link in E0. apply add_link_effect in E1. destruct E1 as (_ & ->).
    right. split; auto. cbv zeta. pose proof (keep_trans _ _ _ E E0) as A.
    match goal with |- settings (with_page_scan None ?x) = _ /\ _ => assert (B : keep s x) end.
    { keep_tac. }
    destruct B as (B1 & B2 & B3). split; [exact B1|]. split; [reflexivity|exact B3].
  - intros H. left. revert H. destruct (sco_of order a s) as [[h c]|]; [|intros [= <- <-]; keep_tac]. destruct (is_pending c); [|intros [= <- <-]; keep_tac].
    intros H. unbind H. injection H as <- <-. apply keep_accept_negotiated in E. destruct o; keep_tac.
Qed.

(** The commands that set something *)
Definition sets (c : command) : bool :=
  match c with
  | WriteDefaultPolicy _ | WriteScanEnable _ _ | WriteName _ | WriteEir _ | WritePageTimeout _ | WriteIac _ | WriteInquiryMode _
  | WriteClass _ | WriteVoice _ | WriteHostFeatures _ | SetEventMask _ | Reset => true
  | _ => false
  end.
Definition neutral (c : command) : bool :=
  negb (sets c) && match c with Inquire _ _ _ | InquiryCancel | AcceptConnection _ _ => false | _ => true end.
Lemma keep_command : forall now s c st s' out, neutral c = true -> run_command order cfg now s c = Ok (st, s', out) -> keep s s'.
Proof.
  intros now s c st s' out K H. destruct c; try discriminate K; cbn [run_command] in H; unfold quiet in H;
    try (injection H as <- <- <-; cbn [fst snd]);
    try (unbind H; injection H as <- <- <-; cbn [fst snd]);
    try (apply (keep_same s s); [reflexivity..|apply keep_refl]).
  - unfold create_connection. destruct (page s); [keep_tac|]. keep_tac.
  - unfold cancel_connection. keep_tac.
  - eapply keep_disconnect; eassumption.
  - unfold reject_connection. keep_tac.
  - unfold change_packet_type. keep_tac.
  - unfold ask_peer. destruct (lookup (acls s) h); keep_tac.
  - unfold ask_peer. destruct (lookup (acls s) h); keep_tac.
  - unfold ask_peer. destruct (lookup (acls s) h); keep_tac.
  - unfold ask_peer. destruct (lookup (acls s) h); keep_tac.
  - eapply keep_setup_sync; eassumption.
  - eapply keep_setup_sync; eassumption.
  - eapply keep_accept_sync; eassumption.
  - unfold reject_sync. keep_tac.
  - destruct (enhanced_ok p e); [|injection H as <- <- <-; keep_tac]. unbind H. injection H as <- <- <-. eapply keep_setup_sync; eassumption.
  - destruct (enhanced_ok p e); [|injection H as <- <- <-; keep_tac]. unbind H. injection H as <- <- <-. eapply keep_accept_sync; eassumption.
  - unfold qos_setup. keep_tac.
  - destruct (lookup (acls s) h); injection H as <- <- <-; keep_tac.
  - unfold switch_role. destruct (acl_of a s) as [[h c]|]; keep_tac.
  - unfold write_link_policy. destruct (lookup (acls s) h) as [c|]; keep_tac.
Qed.

Lemma keep_heard : forall now a s, keep s (heard_from now a s).
Proof. intros now a s. unfold heard_from. destruct (acl_of a s) as [[h c]|]; keep_tac. Qed.
Definition is_page (b : body) : bool := match b with Page _ _ => true | _ => false end.
Lemma keep_dispatch_other : forall now rssi p s s' out, core s -> is_page (content p) = false -> dispatch order cfg now rssi p s = Ok (s', out) -> keep s s'.
Proof.
  intros now rssi p s s' out C IP H. unfold dispatch in H. destruct (content p); try discriminate IP; unfold silent, answering in H;
    try (injection H as <- <-); try (keep_tac; fail).
  - unbind H. injection H as <- <-. apply bye_effect in E; auto. destruct E as [(_ & ->)|(h & c & _ & _ & _ & _ & ->)]; keep_tac.
  - unfold receive_inquiry. keep_tac.
  - unfold receive_page_response in H. destruct (paging (source p) s); [|injection H as <- <-; keep_tac]. unbind H. injection H as <- <-.
    apply keep_create_acl in E. apply keep_check_link in E0. apply add_link_effect in E1. destruct E1 as (_ & ->).
    pose proof (keep_trans _ _ _ E E0) as A. keep_tac.
  - injection H as H. unfold receive_page_reject in H. destruct (paging (source p) s); injection H as <- <-; keep_tac.
  - unbind H. injection H as <- <-. unfold receive_extended_request in E. destruct (get_features cfg s page); [|discriminate]. injection E as <-. keep_tac.
  - unfold receive_sco_request in H. destruct (has_pending_sco order (source p) s); [injection H as <- <-; keep_tac|].
    unbind H. injection H as <- <-. eapply keep_create_sco; eassumption.
  - unfold receive_sco_response in H. destruct (sco_of order (source p) s) as [[h c]|]; [|injection H as <- <-; keep_tac].
    destruct (st =? SUCCESS).
    + unbind H. injection H as <- <-. unfold accept_given in E. eapply keep_open_stream; [|exact E]. keep_tac.
    + no_stream H. injection H as <- <-. keep_tac.
  - unfold receive_sco_bye. destruct (sco_of order (source p) s) as [[h c]|]; keep_tac.
  - unfold receive_switch_request. destruct (acl_of (source p) s) as [[h c]|]; keep_tac.
  - unfold receive_switch_response. destruct (acl_of (source p) s) as [[h c]|]; keep_tac.
Qed.
Lemma keep_dispatch : forall now rssi p s s' out, core s -> dispatch order cfg now rssi p s = Ok (s', out) ->
  keep s s' \/ (is_page (content p) = true /\ page_scan s = None /\ settings s' = settings s /\ inquiry s' = inquiry s).
Proof.
  intros now rssi p s s' out C H. destruct (is_page (content p)) eqn:IP.
  - destruct (content p) eqn:CP; try discriminate IP. unfold dispatch in H. rewrite CP in H.
    injection H as H. unfold receive_page in H. destruct (negb (page_scan_enable s)); [injection H as <- <-; left; keep_tac|].
    destruct (negb _); [injection H as <- <-; left; keep_tac|]. destruct (has_acl_with _ s); [injection H as <- <-; left; keep_tac|].
    destruct (page_scan s) eqn:PS; injection H as <- <-; [left; keep_tac|]. right. auto.
  - left. revert H. apply keep_dispatch_other; auto.
Qed.
Lemma keep_run_tasks : forall now limit fuel s s' out, run_tasks order now limit fuel s = Ok (s', out) -> keep s s'.
Proof.
  intros now limit. induction fuel as [|fuel IH]; cbn [run_tasks]; intros s s' out H; [injection H as <- <-; apply keep_refl|].
  destruct (queue s) as [|t q]; [injection H as <- <-; apply keep_refl|]. destruct (_ && _); [|injection H as <- <-; apply keep_refl].
  unbind H. injection H as <- <-. eapply keep_trans; [|eapply IH; eassumption].
  assert (P : keep s (with_queue q s)) by (split; auto). eapply keep_trans; [exact P|].
  unfold run_job in E. destruct (what_to_do t); try (injection E as <- <-; keep_tac; fail).
  - unfold answering in E. unbind E. injection E as <- <-. eapply keep_check_link; eassumption.
  - unfold silent in E. injection E as <- <-. keep_tac. unfold send_sco. keep_tac.
Qed.


(** * The settings and the request, step by step *)
Definition is_accept (o : op) (a : addr) : Prop := exists try, o = Command (AcceptConnection a try).
Lemma tick_frame : forall now s s' out, tick order now s = Ok (s', out) -> settings s' = settings s /\ page_scan s' = page_scan s.
Proof.
  intros now s s' out H. unfold tick in H. unbind H. injection H as <- <-. apply keep_run_tasks in E. destruct E as (E2 & E3 & _).
  assert (A : keep b b0). { unfold do_paging in E0. destruct (page b); [|injection E0 as <- <-; keep_tac].
    destruct (_ <=? _); [injection E0 as <- <-; keep_tac|]. destruct (_ && _); injection E0 as <- <-; keep_tac. }
  destruct A as (A1 & A2 & _).
  assert (B : settings b1 = settings b0 /\ page_scan b1 = page_scan b0). { unfold do_inquiry in E1. destruct (inquiry b0); [|injection E1 as <- <-; auto].
    destruct (_ <=? _); [injection E1 as <- <-; auto|]. destruct (_ <=? _); injection E1 as <- <-; auto. }
  destruct B. split; congruence.
Qed.
Lemma command_settings : forall now s c st s' out, sets c = false -> run_command order cfg now s c = Ok (st, s', out) -> settings s' = settings s.
Proof.
  intros now s c st s' out S H. destruct (neutral c) eqn:N; [apply (keep_command _ _ _ _ _ _ N H)|].
  unfold neutral in N. rewrite S in N. cbn [negb andb] in N. destruct c; try discriminate N; cbn [run_command] in H.
  - unfold quiet in H. injection H as <- <- <-. unfold start_inquiry. destruct (_ || _); [reflexivity|]. destruct (inquiry s); reflexivity.
  - unfold quiet in H. injection H as <- <- <-. unfold cancel_inquiry. destruct (inquiry s); reflexivity.
  - unbind H. injection H as <- <- <-. apply accept_frame in E. destruct E as [E|E]; [apply E|]. apply E.
Qed.
(** Only the commands that set something change the settings *)
Theorem step_settings : forall now s o s' st out, core s -> (forall c, o = Command c -> sets c = false) ->
  step order cfg now s o = Ok (s', st, out) -> settings s' = settings s.
Proof.
  intros now s o s' st out C S H. destruct o as [c|h pb bc d|h d|rssi p|]; cbn [step] in H; unbind H; try (injection H as <- <- <-).
  - eapply command_settings; eauto.
  - unfold handle_acl in E. destruct (negb _); [discriminate|]. injection E as <-. destruct (lookup (acls s) h); reflexivity.
  - unfold send_sco. destruct (lookup (scos s) h); reflexivity.
  - unfold receive in E. destruct (for_me p s); [|now injection E as <- <-]. destruct (keep_heard now (source p) s) as (K & _).
    apply keep_dispatch in E; [|now apply core_heard]. destruct E as [(E & _)|(_ & _ & E & _)]; congruence.
  - eapply tick_frame; eassumption.
Qed.
(** The pending request changes when a page arrives, when it is accepted, and with Reset *)
Theorem step_request : forall now s o s' st out, core s -> step order cfg now s o = Ok (s', st, out) ->
  page_scan s' = page_scan s \/
  (exists a try, o = Command (AcceptConnection a try) /\ paged_by a s = true /\ page_scan s' = None) \/
  (exists rssi p, o = Receive rssi p /\ is_page (content p) = true /\ page_scan s = None) \/ o = Command Reset.
Proof.
  intros now s o s' st out C H. destruct o as [c|h pb bc d|h d|rssi p|]; cbn [step] in H; unbind H; try (injection H as <- <- <-).
  - destruct (neutral c) eqn:N; [left; apply (keep_command _ _ _ _ _ _ N E)|].
    destruct c; try discriminate N; cbn [run_command] in E; try (injection E as <- <- <-; left; reflexivity); auto.
    + left. unfold quiet in E. injection E as <- <- <-. unfold start_inquiry. destruct (_ || _); [reflexivity|]. destruct (inquiry s); reflexivity.
    + left. unfold quiet in E. injection E as <- <- <-. unfold cancel_inquiry. destruct (inquiry s); reflexivity.
    + unbind E. injection E as <- <- <-. apply accept_frame in E0. destruct E0 as [E0|(P & _ & E0 & _)]; [left; apply E0|].
      right. left. exists a, try_role_switch. auto.
    + left. destruct (7 <? n); injection E as <- <- <-; reflexivity.
  - left. unfold handle_acl in E. destruct (negb _); [discriminate|]. injection E as <-. destruct (lookup (acls s) h); reflexivity.
  - left. unfold send_sco. destruct (lookup (scos s) h); reflexivity.
  - unfold receive in E. destruct (for_me p s); [|injection E as <- <-; now left]. destruct (keep_heard now (source p) s) as (_ & K & _).
    apply keep_dispatch in E; [|now apply core_heard]. destruct E as [(_ & E & _)|(P & E & _)]; [left; congruence|].
    right. right. left. exists rssi, p. split; auto. split; congruence.
  - left. eapply tick_frame; eassumption.
Qed.
End WithOrder.
