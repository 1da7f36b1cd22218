(** The search for devices of a BR/EDR controller. *)
From Coq Require Import Permutation.
From Verif Require Import Prelude Table Sco Bredr BredrBase BredrInv BredrConn BredrSpec BredrRefine BredrTime BredrFrame BredrData BredrFlow BredrPairSpec BredrPair BredrInquirySpec.
From Verif Require BredrRemote BredrRoles.
Open Scope N_scope.

(** * The tasks that a tick leaves in the queue *)
Definition no_inquiry (j : job) : Prop := match j with Transmit p => is_inquiry p = false | _ => True end.
Definition lacks (s s' : bredr) : Prop := forall t, In t (queue s') -> In t (queue s) \/ no_inquiry (what_to_do t).
Lemma lacks_refl : forall s, lacks s s.
Proof. intros s t I. now left. Qed.
Lemma lacks_trans : forall a b c, lacks a b -> lacks b c -> lacks a c.
Proof. intros a b c A B t I. apply B in I. destruct I as [I|I]; auto. Qed.
Lemma lacks_same : forall s0 s s', queue s' = queue s -> lacks s0 s -> lacks s0 s'.
Proof. intros s0 s s' E A t I. rewrite E in I. now apply A. Qed.
Lemma lacks_schedule : forall t j s0 s, no_inquiry j -> lacks s0 s -> lacks s0 (schedule t j s).
Proof. intros t j s0 s Q A u I. cbn [queue schedule with_queue with_next_id] in I. apply in_insert in I. destruct I as [->|I]; auto. Qed.
Lemma lacks_tell_disconnection : forall now h r s0 s, lacks s0 s -> lacks s0 (tell_disconnection now h r s).
Proof. intros. unfold tell_disconnection. destruct (unmasked s 5); auto. now apply lacks_schedule. Qed.
Lemma lacks_close_sco : forall h s0 s, lacks s0 s -> lacks s0 (close_sco h s).
Proof.
  intros h s0 s A. unfold close_sco. destruct (lookup (scos s) h) as [c|]; auto. cbv zeta.
  apply (lacks_same s0 (stop_stream c s)); [reflexivity|]. unfold stop_stream. destruct (sco_stream c); auto.
  intros t I. apply A. eapply in_remove_task, I.
Qed.

Section One.
Variable order : table sco_link -> table sco_link.
Variable cfg : config.
Hypothesis any_order : forall t, Permutation (order t) t.

Lemma lacks_disconnect : forall now h r r' s st s', disconnect order now h r r' s = Ok (st, s') -> lacks s s'.
Proof.
  intros now h r r' s st s'. unfold disconnect. destruct (lookup (scos s) h) as [c|].
  - intros [= <- <-]. apply lacks_tell_disconnection, lacks_close_sco, lacks_schedule; [reflexivity|apply lacks_refl].
  - destruct (lookup (acls s) h) as [c|]; [|intros [= <- <-]; apply lacks_refl]. intros H. unbind H. injection H as <- <-.
    apply remove_link_effect in E0. destruct E0 as (_ & ->).
    match goal with |- lacks _ (with_links _ ?x) => apply (lacks_same s x); [reflexivity|] end. apply lacks_tell_disconnection.
    unfold close_acl in E. destruct (lookup (acls _) h) as [c'|]; [|injection E as <-; apply lacks_schedule; [reflexivity|]].
    + destruct (sco_of order (acl_peer c') _); [discriminate|]. injection E as <-.
      match goal with |- lacks _ (with_acls _ ?x) => apply (lacks_same s x); [reflexivity|] end. apply lacks_schedule; [reflexivity|].
      destruct (sco_of order (acl_peer c) s) as [[sh sc]|]; [|apply lacks_refl].
      apply lacks_tell_disconnection, lacks_close_sco, lacks_schedule; [reflexivity|apply lacks_refl].
    + destruct (sco_of order (acl_peer c) s) as [[sh sc]|]; [|apply lacks_refl].
      apply lacks_tell_disconnection, lacks_close_sco, lacks_schedule; [reflexivity|apply lacks_refl].
Qed.
Lemma lacks_check_link : forall now h s s', check_link order now h s = Ok s' -> lacks s s'.
Proof.
  intros now h s s'. unfold check_link. destruct (lookup (acls s) h) as [c|]; [|intros [= <-]; apply lacks_refl].
  destruct (_ <? _); [|destruct (_ <? _)].
  - intros H. unbind H. injection H as <-. eapply lacks_disconnect; eassumption.
  - intros [= <-]. apply lacks_schedule; [exact Logic.I|]. apply lacks_schedule; [reflexivity|apply lacks_refl].
  - intros [= <-]. apply lacks_schedule; [exact Logic.I|apply lacks_refl].
Qed.
Lemma lacks_run_job : forall now t q s s' out, run_job order now t (with_queue q s) = Ok (s', out) -> lacks (with_queue q s) s'.
Proof.
  intros now t q s s' out H. unfold run_job in H. destruct (what_to_do t) eqn:J; try (injection H as <- <-; apply lacks_refl).
  - injection H as <- <-. apply lacks_schedule; [reflexivity|apply lacks_refl].
  - unfold answering in H. unbind H. injection H as <- <-. eapply lacks_check_link; eassumption.
  - unfold silent in H. injection H as <- <-. intros u I. cbn [queue with_queue] in I. apply in_insert in I. destruct I as [->|I]; [right; exact Logic.I|].
    unfold send_sco in I. destruct (lookup (scos _) h); [|now left]. cbn [transmit schedule queue with_queue with_next_id] in I. apply in_insert in I.
    destruct I as [->|I]; [right; reflexivity|now left].
Qed.
Lemma lacks_run_tasks : forall now limit fuel s s' out, run_tasks order now limit fuel s = Ok (s', out) -> lacks s s'.
Proof.
  intros now limit. induction fuel as [|fuel IH]; cbn [run_tasks]; intros s s' out H; [injection H as <- <-; apply lacks_refl|].
  destruct (queue s) as [|t q] eqn:EQ; [injection H as <- <-; apply lacks_refl|]. destruct (_ && _); [|injection H as <- <-; apply lacks_refl].
  unbind H. injection H as <- <-. eapply lacks_trans; [|eapply IH; exact E0].
  eapply lacks_trans; [|eapply lacks_run_job; exact E]. intros u I. left. rewrite EQ. now right.
Qed.

(** The inquiry packets to be sent *)
Definition inquiries (s : bredr) : list air := filter is_inquiry (air_of s).
Definition of_task (t : task) : list air := filter is_inquiry (packet_of (what_to_do t)).
Lemma inquiries_tasks : forall s, inquiries s = flat_map of_task (queue s).
Proof.
  intros s. unfold inquiries, air_of. clear. induction (queue s) as [|t q IH]; auto. cbn [flat_map]. rewrite filter_app, IH. f_equal.
Qed.
Lemma of_task_none : forall t, no_inquiry (what_to_do t) -> of_task t = [].
Proof. intros t H. unfold of_task. destruct (what_to_do t); try reflexivity. cbn [packet_of filter]. cbn in H. now rewrite H. Qed.
Lemma flat_map_none : forall (A B : Type) (f : A -> list B) l, (forall x, In x l -> f x = []) -> flat_map f l = [].
Proof. intros A B f l. induction l as [|x l IH]; intros H; auto. cbn [flat_map]. rewrite H by now left. apply IH. intros y I. apply H. now right. Qed.
Lemma insert_alone : forall t q, flat_map of_task q = [] -> flat_map of_task (insert t q) = of_task t.
Proof.
  intros t q. induction q as [|u q IH]; intros H; cbn [insert flat_map]; [apply app_nil_r|]. cbn [flat_map] in H. apply app_eq_nil in H. destruct H as (H1 & H2).
  destruct (before t u); cbn [flat_map]; rewrite ?H1, ?H2; [apply app_nil_r|]. now apply IH.
Qed.

(** A tick leaves the packet of the inquiry that is due, if any *)
Definition asked (now : N) (s : bredr) : list air :=
  match inquiry s with
  | Some i =>
      if inquiry_deadline i <=? now then []
      else if inquiry_next i <=? now then [Air (address s) empty_address (InquiryPacket (inquiry_mode s) (inquiry_lap i))]
      else []
  | None => []
  end.
Definition incomplete (j : job) : Prop := match j with Tell e => is_complete (Event e) = false | _ => True end.
Lemma inc_when : forall s c e, is_complete (Event e) = false -> Forall incomplete (when_unmasked s c e).
Proof. intros s c e L. unfold when_unmasked. destruct (unmasked s c); auto. Qed.
Lemma inc_ended : forall s h r, Forall incomplete (ended s h r).
Proof. intros s h r. unfold ended. destruct (unmasked s 0x05); auto. constructor; auto. reflexivity. Qed.
Lemma inc_to : forall s a b l, Forall incomplete l -> Forall incomplete (to s a b :: l).
Proof. intros. constructor; auto. exact Logic.I. Qed.
Ltac inc := repeat first
  [ apply Forall_nil | apply inc_to | apply inc_ended | (apply inc_when; reflexivity) | apply Forall_app; split
  | apply Forall_cons; [first [exact Logic.I|reflexivity]|]
  | match goal with |- Forall _ (match ?x with _ => _ end) => destruct x end
  | match goal with |- Forall _ (if ?x then _ else _) => destruct x end ].
Lemma inc_jobs : forall o s, Forall incomplete (jobs_of order cfg o s).
Proof.
  intros o s. destruct o as [c|h pb bc d|h d|rssi p|]; cbn [jobs_of]; try solve [inc].
  - destruct c; cbn [jobs_of_command]; cbv zeta; unfold jobs_disconnect, jobs_accept, jobs_ask, jobs_setup, jobs_accept_sync; try solve [inc].
    apply Forall_app; split; apply Forall_forall; intros j J; apply in_map_iff in J; destruct J as (x & <- & _); exact Logic.I.
  - destruct (for_me p s); auto. unfold jobs_of_packet. cbv zeta. destruct (content p); inc.
Qed.
Lemma inc_history : forall h s, history order cfg h s -> timely h -> Forall incomplete (pending s).
Proof.
  intros h s H. induction H as [x|h s now o s' st out H IH E]; intros T; [constructor|].
  assert (TK : o = Tick \/ o <> Tick) by (destruct o; auto; right; discriminate). destruct TK as [->|NT].
  - destruct (history_tick order cfg any_order _ _ _ _ _ _ H T E) as (s1 & _ & _ & _ & MD). apply Forall_forall. intros j J. specialize (MD j J).
    destruct j; try exact Logic.I. cbn [made] in MD. destruct e; now cbn in MD |- *.
  - rewrite (history_gains order cfg any_order _ _ _ _ _ _ _ H T NT E). apply Forall_app. split; [apply IH; apply T|apply inc_jobs].
Qed.
Lemma inc_outcome : forall s l, Forall incomplete l -> filter is_complete (flat_map (outcome s) l) = [].
Proof.
  intros s l H. induction H as [|j l J H IH]; auto. cbn [flat_map]. rewrite filter_app, IH, app_nil_r.
  destruct j; cbn [outcome]; try reflexivity.
  - cbn [filter]. cbn in J. destruct e; try reflexivity; discriminate.
  - unfold said. destruct (unmasked _ _); reflexivity.
  - unfold said. destruct (unmasked _ _); reflexivity.
Qed.
Lemma settings_do_paging : forall now s, keep s (fst (do_paging now s)).
Proof.
  intros now s. unfold do_paging. destruct (page s); [|keep_tac]. destruct (_ <=? _); [keep_tac|]. destruct (_ && _); keep_tac.
Qed.
Lemma same_inquiry : forall s x, keep s x -> inquiry x = inquiry s /\ inquiry_mode x = inquiry_mode s /\ address x = address s /\ mask x = mask s.
Proof. intros s x (A & _ & B). unfold settings in A. injection A. auto. Qed.

Lemma tick_inquiries : forall h s now s' st out, history order cfg h s -> timely (Entry now Tick st out :: h) -> step order cfg now s Tick = Ok (s', st, out) ->
  inquiries s' = asked now s /\ packets out = air_of s /\ inquiry s' = inquiry (fst (do_inquiry now s)) /\
  filter is_complete out = filter is_complete (snd (do_inquiry now s)) /\ settings s' = settings s.
Proof.
  intros h s now s' st out H T E. pose proof E as E9. pose proof (inc_history _ _ H (proj2 T)) as INC. destruct T as (T1 & T2).
  destruct (timed_history order cfg any_order _ _ H T2) as (W & P).
  assert (L : latest h <= now). { destruct h as [|e h']; cbn [latest]; [lia|]. apply (T1 e). now left. }
  pose proof (core_history order cfg any_order h _ H) as C.
  cbn [step] in E. unbind E. injection E as <- <- <-. pose proof E0 as TK.
  unfold tick in TK. unbind TK. injection TK as <- <-.
  assert (R : BredrTime.running now (next_id s) s).
  { constructor; [|lia| |].
    - intros t I LE. pose proof (gq_fresh _ (core_queue s C) t I). lia.
    - intros k c E'. destruct (W k c E') as (B & X). split; auto. lia.
    - intros t I Q. specialize (P t I Q). lia. }
  destruct (run_complete (fun _ => True) true order now (next_id s) _ _ _ _ C R (filter_shorter _ _ _) E) as (C1 & R1 & N1).
  pose proof (keep_run_tasks order _ _ _ _ _ _ E) as K1. pose proof (settings_do_paging now b0) as K2. rewrite E1 in K2. cbn [fst] in K2.
  pose proof (keep_trans _ _ _ K1 K2) as K3. destruct (same_inquiry _ _ K3) as (I1 & I2 & I3 & I4).
  assert (Z0 : flat_map of_task (queue b0) = []).
  { apply flat_map_none. intros t I. destruct (lacks_run_tasks _ _ _ _ _ _ E t I) as [J|J]; [|now apply of_task_none].
    apply of_task_none. destruct (what_to_do t) eqn:WD; try exact Logic.I. cbn [no_inquiry]. exfalso. specialize (N1 t I).
    assert (PJ : prompt (what_to_do t) = true) by now rewrite WD.
    pose proof (gq_fresh _ (core_queue s C) t J) as F. specialize (P t J PJ). unfold eligible in N1.
    assert (B1 : due t <=? now = true) by (apply N.leb_le; lia). assert (B2 : ident t <? next_id s = true) by now apply N.ltb_lt. rewrite B1, B2 in N1. discriminate. }
  assert (Z1 : flat_map of_task (queue b1) = []).
  { unfold do_paging in E1. destruct (page b0); [|now injection E1 as <- <-]. destruct (_ <=? _); [now injection E1 as <- <-|].
    destruct (_ && _); [|now injection E1 as <- <-]. injection E1 as <- <-. cbn [queue transmit schedule with_queue with_next_id with_page].
    now rewrite insert_alone. }
  destruct (history_tick order cfg any_order _ _ _ _ _ _ H (conj T1 T2) E9) as (s1 & OUT & KP & _ & _).
  pose proof (keep_trans _ _ _ KP (settings_do_paging now s1)) as K4. set (x := fst (do_paging now s1)) in *.
  destruct (same_inquiry _ _ K4) as (J1 & J2 & J3 & J4).
  assert (SN : snd (do_inquiry now x) = snd (do_inquiry now s)).
  { unfold do_inquiry. rewrite J1. destruct (inquiry s) as [i|]; auto. destruct (_ <=? _); [cbn [snd]; unfold said, unmasked; now rewrite J4|]. now destruct (_ <=? _). }
  split; [|split; [|split; [|split]]].
  - rewrite inquiries_tasks. unfold asked. unfold do_inquiry in E2. rewrite I1 in E2. destruct (inquiry s) as [i|]; [|now injection E2 as <- <-].
    destruct (_ <=? _); [now injection E2 as <- <-|]. destruct (_ <=? _); [|now injection E2 as <- <-]. injection E2 as <- <-.
    cbn [queue transmit schedule with_queue with_next_id with_inquiry]. rewrite insert_alone by exact Z1. cbn. unfold to_peer. now rewrite I2, I3.
  - rewrite OUT, !packets_app, outcome_packets, air_pending.
    assert (P1 : packets (snd (do_paging now s1)) = []). { unfold do_paging. destruct (page s1); auto. destruct (_ <=? _); auto. now destruct (_ && _). }
    assert (P2 : packets (snd (do_inquiry now x)) = []). { unfold do_inquiry. destruct (inquiry x); auto. destruct (_ <=? _); [apply no_sent_said|]. now destruct (_ <=? _). }
    now rewrite P1, P2, !app_nil_r.
  - unfold do_inquiry in E2 |- *. rewrite I1 in E2. destruct (inquiry s) as [i|] eqn:IS; [|injection E2 as <- <-; cbn; congruence].
    destruct (_ <=? _); [now injection E2 as <- <-|]. destruct (_ <=? _); injection E2 as <- <-; cbn; congruence.
  - rewrite OUT, !filter_app, inc_outcome by exact INC. cbn [app]. rewrite SN.
    assert (P1 : filter is_complete (snd (do_paging now s1)) = []). { unfold do_paging. destruct (page s1); auto. destruct (_ <=? _); auto. now destruct (_ && _). }
    now rewrite P1.
  - eapply tick_frame, E0.
Qed.

(** * The steps other than a tick *)
Lemma jobs_no_inquiry : forall o s, filter is_inquiry (BredrRoles.pk (jobs_of order cfg o s)) = [].
Proof.
  intros o s. assert (Q : BredrRoles.sends (fun p => is_inquiry p = false) (jobs_of order cfg o s)).
  { destruct o as [c|h pb bc d|h d|rssi p|]; cbn [jobs_of]; try solve [BredrRoles.sending reflexivity].
    - destruct c; cbn [jobs_of_command]; cbv zeta; unfold jobs_disconnect, jobs_accept, jobs_ask, jobs_setup, jobs_accept_sync; BredrRoles.sending reflexivity.
    - destruct (for_me p s); [|BredrRoles.sending reflexivity]. unfold jobs_of_packet. cbv zeta. destruct (content p); BredrRoles.sending reflexivity. }
  unfold BredrRoles.sends in Q. induction (BredrRoles.pk (jobs_of order cfg o s)) as [|p l IH]; auto. cbn [filter]. rewrite Q by now left. apply IH. intros q I. apply Q. now right.
Qed.
Lemma other_inquiries : forall h s now o s' st out, history order cfg h s -> timely (Entry now o st out :: h) -> o <> Tick -> step order cfg now s o = Ok (s', st, out) ->
  inquiries s' = inquiries s /\ packets out = [].
Proof.
  intros h s now o s' st out H T NT E. split; [|eapply step_silent; eassumption]. unfold inquiries. rewrite !air_pending.
  rewrite (history_gains order cfg any_order _ _ _ _ _ _ _ H T NT E), flat_map_app, filter_app. pose proof (jobs_no_inquiry o s) as J. unfold BredrRoles.pk in J. rewrite J. apply app_nil_r.
Qed.
Definition of_search (o : output) : bool := match o with Event (InquiryComplete _) | Event (InquiryResult _ _ _ _ _ _ _) => true | _ => false end.
Definition is_reply (p : air) : bool := match content p with InquiryAnswer _ _ _ _ _ _ => true | _ => false end.
Lemma dispatch_searches : forall now rssi p s s' out, is_reply p = false -> dispatch order cfg now rssi p s = Ok (s', out) -> filter of_search out = [].
Proof.
  assert (SD : forall x c e, of_search (Event e) = false -> filter of_search (said x c e) = []) by (intros x c e L; unfold said; destruct (unmasked x c); auto; cbn [filter]; now rewrite L).
  intros now rssi p s s' out NR H. unfold is_reply in NR. unfold dispatch in H.
  assert (ABOUT : forall a c e, (forall h, of_search (Event (e h)) = false) -> filter of_search (receive_about a c e s) = []).
  { intros a c e K. unfold receive_about. destruct (acl_of a s) as [[h d]|]; [apply SD, K|reflexivity]. }
  destruct (content p); try discriminate NR; unfold silent, answering in H;
    try (injection H as <- <-; reflexivity);
    try (injection H as <- <-; apply SD; reflexivity);
    try (injection H as <- <-; apply ABOUT; reflexivity).
  - injection H as <- <-. unfold receive_acl. destruct (acl_of _ _) as [[h c]|]; reflexivity.
  - injection H as <- <-. unfold receive_voice. destruct (sco_of _ _ _) as [[h c]|]; reflexivity.
  - unbind H. now injection H as <- <-.
  - injection H as H. unfold receive_page in H. destruct (negb (page_scan_enable s)); [now injection H as <- <-|].
    destruct (negb _); [now injection H as <- <-|]. destruct (has_acl_with _ s); [now injection H as <- <-|]. destruct (page_scan s); now injection H as <- <-.
  - unfold receive_page_response in H. destruct (paging (source p) s); [|now injection H as <- <-]. unbind H. injection H as <- <-.
    rewrite filter_app, (SD _ _ (ConnectionComplete _ _ _ _)), app_nil_r by reflexivity.
    match goal with |- context [if role_eqb ?x ?y then _ else _] => destruct (role_eqb x y) end; [now apply SD|reflexivity].
  - injection H as H. unfold receive_page_reject in H. destruct (paging (source p) s); injection H as <- <-; [now apply SD|reflexivity].
  - unbind H. now injection H as <- <-.
  - unfold receive_sco_request in H. destruct (has_pending_sco order (source p) s); [now injection H as <- <-|]. unbind H. now injection H as <- <-.
  - unfold receive_sco_response in H. destruct (sco_of order (source p) s) as [[h c]|]; [|now injection H as <- <-]. destruct (st =? SUCCESS).
    + unbind H. injection H as <- <-. now destruct (sco_legacy c).
    + no_stream H. injection H as <- <-. now destruct (sco_legacy c).
Qed.
Lemma reply_events : forall now rssi p s s' out, is_reply p = true -> dispatch order cfg now rssi p s = Ok (s', out) ->
  s' = s /\ exists mode rep cls off r d, content p = InquiryAnswer mode rep cls off r d /\ out = receive_inquiry_answer (source p) mode rep cls off r d s.
Proof.
  intros now rssi p s s' out R H. unfold is_reply in R. unfold dispatch in H. destruct (content p); try discriminate R. injection H as <- <-.
  split; auto. do 6 eexists. split; reflexivity.
Qed.
Lemma no_search_complete : forall out, filter of_search out = [] -> filter is_complete out = [].
Proof.
  intros out. induction out as [|o out IH]; intros H; auto. cbn [filter] in *. destruct o as [|e| | |]; try (now apply IH). destruct e; try (now apply IH); discriminate.
Qed.
Lemma other_incomplete : forall now s o s' st out, o <> Tick -> step order cfg now s o = Ok (s', st, out) -> filter is_complete out = [].
Proof.
  intros now s o s' st out NT H. destruct o as [c|h pb bc d|h d|rssi p|]; [| | | |congruence].
  1-3: match type of H with step _ _ _ _ ?o = _ => pose proof (BredrRemote.own_silent order cfg now s o s' st out Logic.I H) as EV end; clear - EV; unfold BredrRemote.events_of in EV;
    induction out as [|o out IH]; auto; cbn [flat_map filter] in *; destruct o; try (now apply IH); discriminate.
  cbn [step] in H. unbind H. injection H as <- <- <-. unfold receive in E. destruct (for_me p s); [|now injection E as <- <-].
  destruct (is_reply p) eqn:R; [|eapply no_search_complete, dispatch_searches; eassumption].
  destruct (reply_events _ _ _ _ _ _ R E) as (_ & mode & rep & cls & off & r & d & _ & ->). unfold receive_inquiry_answer, said.
  destruct (mode =? 0); [destruct (unmasked _ _); reflexivity|]. destruct (mode =? 1); [destruct (unmasked _ _); reflexivity|]. destruct (mode =? 2); reflexivity.
Qed.

(** * The inquiry that is running *)
Definition matches (f : search) (i : inquiry_state) : Prop := code f = inquiry_lap i /\ next_at f = inquiry_next i /\ ends_at f = inquiry_deadline i.
Definition agrees (h : list entry) (s : bredr) : Prop :=
  match searching h, inquiry s with Some f, Some i => matches f i | None, None => True | _, _ => False end.
Lemma inquiry_other : forall now s c st s' out, match c with Inquire _ _ _ | InquiryCancel | Reset => False | _ => True end ->
  run_command order cfg now s c = Ok (st, s', out) -> inquiry s' = inquiry s.
Proof.
  intros now s c st s' out NC H. destruct (neutral c) eqn:N; [apply (keep_command order cfg _ _ _ _ _ _ N H)|].
  destruct c; try discriminate N; try contradiction; cbn [run_command] in H; try (injection H as <- <- <-; reflexivity).
  - unbind H. injection H as <- <- <-. apply accept_frame in E. destruct E as [E|E]; [apply E|]. apply E.
  - destruct (7 <? n); injection H as <- <- <-; reflexivity.
Qed.
Theorem inquiry_known : forall h s, history order cfg h s -> timely h -> agrees h s /\ inquiry_mode s = mode_set h.
Proof.
  intros h s H. induction H as [x|h s now o s' st out H IH E]; intros T; [split; [exact Logic.I|reflexivity]|].
  specialize (IH (proj2 T)). destruct IH as (IH1 & IH2). pose proof (core_history order cfg any_order _ _ H) as C.
  destruct o as [c|k pb bc d|k d|rssi p|].
  - assert (E1 := E). cbn [step] in E1. unbind E1. injection E1 as <- <- <-.
    assert (MD : match c with WriteInquiryMode _ | Reset => False | _ => True end -> inquiry_mode b = inquiry_mode s).
    { intros NC. destruct (sets c) eqn:S.
      - destruct c; try discriminate S; try contradiction; cbn [run_command] in E0; try (injection E0 as <- <- <-; reflexivity).
        destruct (7 <? n); injection E0 as <- <- <-; reflexivity.
      - pose proof (command_settings order cfg _ _ _ _ _ _ S E0) as X. unfold settings in X. now injection X. }
    assert (OT : match c with Inquire _ _ _ | InquiryCancel | Reset => False | _ => True end -> inquiry b = inquiry s) by (intros NC; eapply inquiry_other; eassumption).
    split.
    + unfold agrees in *. destruct c; cbn [searching what]; try (rewrite OT by exact Logic.I; exact IH1); cbn [run_command] in E0; unfold quiet in E0; injection E0 as <- <- <-.
      * unfold start_inquiry. cbn [status_of at_time]. destruct (_ || _); [exact IH1|].
        destruct (inquiry s) eqn:IS; cbn [fst snd succeeded]; [now rewrite IS|]. cbn. repeat split.
      * unfold cancel_inquiry. cbn [status_of]. destruct (inquiry s) eqn:IS; cbn [fst snd succeeded]; [exact Logic.I|]. cbn. now rewrite IS.
      * exact Logic.I.
    + destruct c; cbn [mode_set what]; try (rewrite MD by exact Logic.I; exact IH2); cbn [run_command] in E0; injection E0 as <- <- <-; reflexivity.
  - cbn [step] in E. unbind E. injection E as <- <- <-. unfold handle_acl in E0. destruct (negb _); [discriminate|]. injection E0 as <-.
    destruct (lookup (acls s) k); (split; [exact IH1|exact IH2]).
  - cbn [step] in E. injection E as <- <- <-. unfold send_sco. destruct (lookup (scos s) k); (split; [exact IH1|exact IH2]).
  - cbn [step] in E. unbind E. injection E as <- <- <-. unfold receive in E0. destruct (for_me p s); [|injection E0 as <- <-; split; [exact IH1|exact IH2]].
    destruct (keep_heard now (source p) s) as (K1 & _ & K2).
    assert (K3 : settings b = settings s /\ inquiry b = inquiry s).
    { apply keep_dispatch in E0; [|now apply core_heard]. destruct E0 as [(E0 & _ & E1)|(_ & _ & E0 & E1)]; split; congruence. }
    destruct K3 as (K3 & K4). unfold settings in K3. injection K3. intros _ _ X _ _ _ _ _ _ _ _ _ _. unfold agrees. cbn [searching mode_set what].
    rewrite K4, X. split; [exact IH1|exact IH2].
  - destruct (tick_inquiries _ _ _ _ _ _ H T E) as (_ & _ & I1 & _ & I2). unfold settings in I2. injection I2. intros _ _ X _ _ _ _ _ _ _ _ _ _. split.
    + unfold agrees in *. cbn [searching what at_time]. rewrite I1. unfold do_inquiry. destruct (searching h) as [f|], (inquiry s) as [i|] eqn:IS; try contradiction; [|cbn [fst]; now rewrite IS].
      destruct IH1 as (M1 & M2 & M3). rewrite M3, M2. destruct (_ <=? _); [exact Logic.I|]. destruct (_ <=? _); cbn [fst].
      * cbn. repeat split; auto.
      * rewrite IS. repeat split; auto.
    + cbn [mode_set what]. now rewrite X.
Qed.

(** * The answers to the commands *)
Theorem inquiry_statuses : forall h s now o s' st out, history order cfg h s -> timely h -> step order cfg now s o = Ok (s', st, out) ->
  match o with
  | Command (Inquire _ len num) =>
      st = Some (if (0xff <? num) || (len <? 1) || (0x30 <? len) then INVALID_PARAMETERS else match searching h with Some _ => DISALLOWED | None => SUCCESS end)
  | Command InquiryCancel => st = Some (match searching h with Some _ => SUCCESS | None => DISALLOWED end)
  | _ => True
  end.
Proof.
  intros h s now o s' st out H T E. destruct (inquiry_known _ _ H T) as (A & _). unfold agrees in A.
  destruct o as [c| | | |]; try exact Logic.I. destruct c; try exact Logic.I; cbn [step] in E; unbind E; injection E as <- <- <-; cbn [run_command] in E0; unfold quiet in E0; injection E0 as <- <- <-.
  - unfold start_inquiry. destruct (_ || _); [reflexivity|]. destruct (searching h), (inquiry s); try contradiction; reflexivity.
  - unfold cancel_inquiry. destruct (searching h), (inquiry s); try contradiction; reflexivity.
Qed.

(** * The end of an inquiry *)
Theorem completes_once : forall h s now o s' st out, history order cfg h s -> timely (Entry now o st out :: h) -> step order cfg now s o = Ok (s', st, out) ->
  filter is_complete out =
    match o, searching h with
    | Tick, Some f => if (ends_at f <=? now) && unmasked s 0x01 then [Event (InquiryComplete SUCCESS)] else []
    | _, _ => []
    end.
Proof.
  intros h s now o s' st out H T E. assert (TK : o = Tick \/ o <> Tick) by (destruct o; auto; right; discriminate). destruct TK as [->|NT].
  - destruct (tick_inquiries _ _ _ _ _ _ H T E) as (_ & _ & _ & CM & _). rewrite CM. destruct (inquiry_known _ _ H (proj2 T)) as (A & _). unfold agrees in A.
    unfold do_inquiry. destruct (searching h) as [f|], (inquiry s) as [i|]; try contradiction; auto. destruct A as (_ & _ & <-).
    destruct (_ <=? _); cbn [andb snd]; [unfold said; destruct (unmasked s 1); reflexivity|]. now destruct (_ <=? _).
  - rewrite (other_incomplete _ _ _ _ _ _ NT E). destruct o; auto. congruence.
Qed.
Lemma mask_step : forall h s now o s' st out, history order cfg h s -> step order cfg now s o = Ok (s', st, out) ->
  unmasked s 0x01 = true -> keeps_complete (Entry now o st out) -> unmasked s' 0x01 = true.
Proof.
  intros h s now o s' st out H E U K. pose proof (core_history order cfg any_order _ _ H) as C. unfold unmasked in *.
  assert (KM : (forall c, o = Command c -> sets c = false) -> mask s' = mask s).
  { intros KK. pose proof (step_settings order cfg now s o s' st out C KK E) as X. unfold settings in X. now injection X. }
  destruct o as [c| | | |]; try (rewrite KM by discriminate; exact U). destruct (sets c) eqn:S; [|rewrite KM by (now intros ? [= <-]); exact U].
  destruct c; try discriminate S; cbn [step] in E; unbind E; injection E as <- <- <-; cbn [run_command] in E0; try (injection E0 as <- <- <-; exact U).
  - destruct (7 <? n); injection E0 as <- <- <-; exact U.
  - injection E0 as <- <- <-. reflexivity.
  - injection E0 as <- <- <-. exact K.
Qed.
Theorem inquiries_accounted : forall h s, history order cfg h s -> timely h -> Forall keeps_complete h ->
  unmasked s 0x01 = true /\ sum starts h = (sum finishes h + stopped h + in_progress h)%nat.
Proof.
  intros h s H. induction H as [x|h s now o s' st out H IH E]; intros T K; [split; reflexivity|].
  inversion K as [|? ? K1 K2]; subst. destruct (IH (proj2 T) K2) as (U & A). split; [eapply mask_step; eassumption|].
  pose proof (completes_once _ _ _ _ _ _ _ H T E) as CO. pose proof (inquiry_statuses _ _ _ _ _ _ _ H (proj2 T) E) as ST.
  cbn [sum fold_right]. fold (sum starts h). fold (sum finishes h). unfold finishes at 1. cbn [sent]. rewrite CO. unfold in_progress in *. cbn [stopped searching]. unfold starts at 1. cbn [what].
  destruct o as [c| | | |]; cbn [List.length]; try lia.
  - destruct c; cbn [List.length]; try lia; cbn [status_of].
    + subst st. destruct (_ || _); [change (succeeded (Some INVALID_PARAMETERS)) with false; cbv iota; lia|].
      destruct (searching h); [change (succeeded (Some DISALLOWED)) with false|change (succeeded (Some SUCCESS)) with true]; cbv iota in *; lia.
    + subst st. destruct (searching h); [change (succeeded (Some SUCCESS)) with true|change (succeeded (Some DISALLOWED)) with false]; cbv iota in *; lia.
  - destruct (searching h) as [f|]; [|cbn; lia]. rewrite U, Bool.andb_true_r. cbn [at_time]. destruct (_ <=? _); [cbn; lia|]. destruct (_ <=? _); cbn; lia.
Qed.

(** * The packets of an inquiry *)
Theorem probes_sent : forall h s, history order cfg h s -> timely h -> inquiries_sent h ++ inquiries s = map (probe_packet (address s)) (probes h).
Proof.
  intros h s H. induction H as [x|h s now o s' st out H IH E]; intros T; [reflexivity|]. specialize (IH (proj2 T)).
  rewrite (history_address order cfg any_order _ _ H _ _ _ _ _ E). unfold inquiries_sent in *. cbn [rev]. rewrite flat_map_app. cbn [flat_map sent probes]. rewrite app_nil_r, map_app.
  assert (TK : o = Tick \/ o <> Tick) by (destruct o; auto; right; discriminate). destruct TK as [->|NT].
  - destruct (tick_inquiries _ _ _ _ _ _ H T E) as (I1 & I2 & _). rewrite I1, I2, <- IH. f_equal. unfold asked. cbn [what at_time].
    destruct (inquiry_known _ _ H (proj2 T)) as (A & MS). unfold agrees in A. destruct (searching h) as [f|], (inquiry s) as [i|]; try contradiction; auto.
    destruct A as (M1 & M2 & M3). rewrite M2, M3. destruct (_ <=? _); auto. destruct (_ <=? _); auto. cbn. unfold probe_packet. cbn. now rewrite M1, MS.
  - destruct (other_inquiries _ _ _ _ _ _ _ H T NT E) as (I1 & I2). rewrite I1, I2. cbn [filter]. rewrite app_nil_r, IH. cbn [what]. destruct o; try congruence; cbn [map]; now rewrite app_nil_r.
Qed.
End One.
