(** The BR/EDR controller: what becomes of the role of a link. *)
From Coq Require Import Permutation.
From Verif Require Import Prelude Table Sco Bredr BredrBase BredrInv BredrConn BredrSpec BredrRefine BredrTime BredrFrame BredrData BredrFlow BredrPairSpec BredrPair BredrRemote.
From Verif Require Handles.
Import Handles(get_unused_handle, kAclRangeStart, kAclRangeEnd).
Open Scope N_scope.

(** No link is new and none has another role *)
Definition fewer (s s' : bredr) : Prop := forall h c', lookup (acls s') h = Some c' ->
  exists c, lookup (acls s) h = Some c /\ acl_peer c' = acl_peer c /\ acl_role c' = acl_role c.
Lemma fewer_refl : forall s, fewer s s.
Proof. intros s h c' L. eauto. Qed.
Lemma fewer_trans : forall a b c, fewer a b -> fewer b c -> fewer a c.
Proof.
  intros a b c A B h c' L. destruct (B h c' L) as (d & L' & P & R). destruct (A h d L') as (e & L'' & P' & R'). exists e. split; auto. split; congruence.
Qed.
Lemma fewer_same : forall s0 s s', acls s' = acls s -> fewer s0 s -> fewer s0 s'.
Proof. intros s0 s s' E F h c' L. rewrite E in L. exact (F h c' L). Qed.
Lemma fewer_put : forall s0 s h c c', fewer s0 s -> lookup (acls s) h = Some c -> acl_peer c' = acl_peer c -> acl_role c' = acl_role c -> fewer s0 (with_acls (put (acls s) h c') s).
Proof.
  intros s0 s h c c' F L P R. eapply fewer_trans; [exact F|]. intros k d. cbn [acls with_acls]. rewrite lookup_put. destruct (N.eqb_spec k h) as [->|D]; [|eauto]. intros [= <-]. eauto.
Qed.
Lemma fewer_erase : forall s0 s s' h, acls s' = erase (acls s) h -> fewer s0 s -> fewer s0 s'.
Proof.
  intros s0 s s' h E F. eapply fewer_trans; [exact F|]. intros k d. rewrite E, lookup_erase. destruct (k =? h); [discriminate|eauto].
Qed.
Lemma fewer_tables : forall s s', same_tables s s' -> fewer s s'.
Proof. intros s s' T. apply (fewer_same s s); [apply T|apply fewer_refl]. Qed.
Lemma fewer_close_sco : forall h s, fewer s (close_sco h s).
Proof. intros. apply fewer_tables, close_sco_tables. Qed.
Lemma fewer_tell_disconnection : forall now h r s, fewer s (tell_disconnection now h r s).
Proof. intros. apply fewer_tables, tell_disconnection_tables. Qed.

Section WithOrder.
Variable order : table sco_link -> table sco_link.
Variable cfg : config.
Hypothesis any_order : forall t, Permutation (order t) t.

Lemma acls_open_stream : forall now h s s', open_stream order now h s = Ok s' -> acls s' = acls s.
Proof.
  intros now h s s'. unfold open_stream. destruct (lookup (scos s) h) as [c|]; [|now intros [= <-]].
  destruct (sco_stream c); [discriminate|]. destruct (sco_spoofed c); [|now intros [= <-]].
  destruct (sco_of order (sco_peer c) s) as [[h' c']|]; [|discriminate]. unfold start_stream. now intros [= <-].
Qed.
Lemma acls_accept_negotiated : forall now h c p s l s', accept_negotiated order now h c p s = Ok (l, s') -> acls s' = acls s.
Proof.
  intros now h c p s l s'. unfold accept_negotiated. destruct (negotiate _ _ _) as [k|]; [|now intros [= <- <-]].
  intros H. unbind H. injection H as <- <-. apply acls_open_stream in E. exact E.
Qed.
Lemma acls_cancel_sco : forall a s, acls (cancel_sco order a s) = acls s.
Proof. intros a s. unfold cancel_sco. now destruct (sco_of order a s) as [[h c]|]. Qed.
Lemma acls_setup_sync : forall now h p sp leg s st s', setup_sync order now h p sp leg s = Ok (st, s') -> acls s' = acls s.
Proof.
  intros now h p sp leg s st s'. unfold setup_sync. destruct (lookup (acls s) h) as [c|]; [|now intros [= <- <-]].
  destruct (has_pending_sco order (acl_peer c) s); [now intros [= <- <-]|]. intros H. unbind H. injection H as <- <-.
  unfold create_sco in E. destruct (get_unused_handle _ _ _ _) as [[h' l]|]; [|discriminate]. now injection E as <- <-.
Qed.
Lemma acls_accept_sync : forall now a p s st s', accept_sync order now a p s = Ok (st, s') -> acls s' = acls s.
Proof.
  intros now a p s st s'. unfold accept_sync. destruct (sco_of order a s) as [[h c]|]; [|now intros [= <- <-]].
  destruct (is_pending c); [|now intros [= <- <-]]. intros H. unbind H. injection H as <- <-.
  apply acls_accept_negotiated in E. destruct o; cbn; rewrite ?acls_cancel_sco; exact E.
Qed.
Lemma fewer_disconnect : forall now h r r' s st s', core s -> disconnect order now h r r' s = Ok (st, s') -> fewer s s'.
Proof.
  intros now h r r' s st s' C H. apply disconnect_effect in H; auto. destruct H as [(_ & -> & _)|[(_ & _ & T)|(_ & _ & c & L & E1 & _)]].
  - apply fewer_refl.
  - now apply fewer_tables.
  - apply (fewer_erase s s s' h E1), fewer_refl.
Qed.
Lemma fewer_check_link : forall now h s s', core s -> check_link order now h s = Ok s' -> fewer s s'.
Proof.
  intros now h s s' C. unfold check_link. destruct (lookup (acls s) h) as [c|]; [|intros [= <-]; apply fewer_refl].
  destruct (_ <? _); [|destruct (_ <? _)].
  - intros H. unbind H. injection H as <-. eapply fewer_disconnect; eassumption.
  - intros [= <-]. now apply (fewer_same s s), fewer_refl.
  - intros [= <-]. now apply (fewer_same s s), fewer_refl.
Qed.

(** A new link with a device that had none *)
Definition one_more (s s' : bredr) : Prop := exists h c, ~ In (acl_peer c) (peers s) /\ acls s' = acls s ++ [(h, c)].
Lemma accept_links : forall now a try s st s', core s -> accept_connection order now a try s = Ok (st, s') -> fewer s s' \/ one_more s s'.
Proof.
  intros now a try s st s' C H. unfold accept_connection in H. destruct (paged_by a s).
  - destruct (has_acl_with a s) eqn:HA; [injection H as <- <-; left; apply fewer_refl|]. apply has_acl_with_spec in HA.
    match type of H with context [create_acl now a ?x _ _] => set (r := x) in *; clearbody r end. unbind H. injection H as <- <-. right.
    destruct (open_effect order _ _ _ _ _ _ _ _ C E E0) as (N & R & l & ->). apply add_link_effect in E1. destruct E1 as (_ & ->). cbv zeta.
    exists n, (AclLink a r (default_policy s) now). split; [exact HA|]. repeat match goal with |- context [if ?b then _ else _] => match type of b with bool => destruct b end end; reflexivity.
  - left. destruct (sco_of order a s) as [[h c]|]; [|injection H as <- <-; apply fewer_refl]. destruct (is_pending c); [|injection H as <- <-; apply fewer_refl].
    unbind H. injection H as <- <-. apply acls_accept_negotiated in E. apply (fewer_same s s); [|apply fewer_refl].
    match goal with |- context [if ?b then _ else _] => destruct b end; destruct o; cbn; rewrite ?acls_cancel_sco; exact E.
Qed.
Lemma command_links : forall now s c st s' out, core s -> run_command order cfg now s c = Ok (st, s', out) -> fewer s s' \/ one_more s s'.
Proof.
  intros now s c st s' out C H.
  assert (Z : forall x, acls x = acls s -> fewer s x \/ one_more s x) by (intros x E; left; now apply (fewer_same s s), fewer_refl).
  destruct c; cbn [run_command] in H; unfold quiet in H;
    try (injection H as <- <- <-; cbn [fst snd]; apply Z; reflexivity).
  - injection H as <- <- <-. unfold start_inquiry. apply Z. destruct (_ || _); auto. destruct (inquiry s); auto.
  - injection H as <- <- <-. unfold cancel_inquiry. apply Z. destruct (inquiry s); auto.
  - injection H as <- <- <-. unfold create_connection. apply Z. destruct (page s); auto. destruct (has_acl_with a s); auto. destruct (paged_by a s); auto.
  - injection H as <- <- <-. unfold cancel_connection. apply Z. destruct (paging a s); auto. cbn [snd]. now destruct (unmasked s 3).
  - unbind H. injection H as <- <- <-. left. eapply fewer_disconnect; eassumption.
  - unbind H. injection H as <- <- <-. eapply accept_links; eassumption.
  - injection H as <- <- <-. unfold reject_connection. apply Z. destruct (paged_by a s); auto.
  - injection H as <- <- <-. unfold change_packet_type. apply Z. destruct (has (acls s) h); auto.
  - injection H as <- <- <-. unfold ask_peer. apply Z. destruct (lookup (acls s) h); auto.
  - injection H as <- <- <-. unfold ask_peer. apply Z. destruct (lookup (acls s) h); auto.
  - injection H as <- <- <-. unfold ask_peer. apply Z. destruct (lookup (acls s) h); auto.
  - injection H as <- <- <-. unfold ask_peer. apply Z. destruct (lookup (acls s) h); auto.
  - unbind H. injection H as <- <- <-. apply acls_setup_sync in E. now apply Z.
  - unbind H. injection H as <- <- <-. apply acls_setup_sync in E. now apply Z.
  - unbind H. injection H as <- <- <-. apply acls_accept_sync in E. now apply Z.
  - injection H as <- <- <-. unfold reject_sync. apply Z. destruct (has_pending_sco order a s); auto. cbn. apply acls_cancel_sco.
  - destruct (enhanced_ok p e); [|injection H as <- <- <-; now apply Z]. unbind H. injection H as <- <- <-. apply acls_setup_sync in E. now apply Z.
  - destruct (enhanced_ok p e); [|injection H as <- <- <-; now apply Z]. unbind H. injection H as <- <- <-. apply acls_accept_sync in E. now apply Z.
  - injection H as <- <- <-. unfold qos_setup. apply Z. destruct (negb _); auto. destruct (2 <? service); auto. cbn [snd]. now destruct (unmasked s _).
  - destruct (lookup (acls s) h); injection H as <- <- <-; now apply Z.
  - injection H as <- <- <-. unfold switch_role. apply Z. destruct (acl_of a s) as [[h c]|]; auto. destruct (sco_of order a s); auto. cbn [snd].
    destruct (negb _); auto. now destruct (unmasked s _).
  - injection H as <- <- <-. unfold write_link_policy. destruct (lookup (acls s) h) as [c|] eqn:L; [|now apply Z]. destruct (7 <? n); [now apply Z|].
    left. cbn [snd]. eapply fewer_put; [apply fewer_refl|exact L|reflexivity|reflexivity].
  - destruct (7 <? n); injection H as <- <- <-; now apply Z.
  - injection H as <- <- <-. left. intros h c' L. unfold reset in L. cbn in L. discriminate.
Qed.
Lemma fewer_heard : forall now a s, core s -> fewer s (heard_from now a s).
Proof.
  intros now a s C. unfold heard_from. destruct (acl_of a s) as [[h c]|] eqn:F; [|apply fewer_refl].
  destruct (acl_lookup a s h c C F) as (L & _). eapply fewer_put; [apply fewer_refl|exact L|reflexivity|reflexivity].
Qed.

(** Whether a packet turns the role of the link with its sender *)
Definition turns (p : air) (c : acl_link) : bool :=
  match content p with SwitchRequest => N.testbit (acl_policy c) 0 | SwitchResponse st => st =? SUCCESS | _ => false end.
(** The links, and one of them with the other role *)
Definition turned (p : air) (s s' : bredr) : Prop := exists h c, acl_of (source p) s = Some (h, c) /\ turns p c = true /\ acls s' = put (acls s) h (with_acl_role (other (acl_role c)) c).
Lemma dispatch_links : forall now rssi p s s' out, core s -> conn s -> dispatch order cfg now rssi p s = Ok (s', out) ->
  (fewer s s' /\ forall h c, acl_of (source p) s = Some (h, c) -> turns p c = false) \/ (one_more s s' /\ forall c, turns p c = false) \/ turned p s s'.
Proof.
  intros now rssi p s s' out C K H. unfold dispatch in H.
  assert (Z : (forall c, turns p c = false) -> forall x, acls x = acls s -> (fewer s x /\ forall h c, acl_of (source p) s = Some (h, c) -> turns p c = false) \/ (one_more s x /\ forall c, turns p c = false) \/ turned p s x)
    by (intros T x E; left; split; [now apply (fewer_same s s), fewer_refl|auto]).
  unfold turns at 1 in Z. revert H Z. destruct (content p) eqn:CO; intros H Z; unfold silent, answering in H; try (specialize (Z (fun _ => eq_refl)));
    try (injection H as <- <-; apply Z; reflexivity).
  - (* Bye *) unbind H. injection H as <- <-. apply bye_effect in E; auto. destruct E as [(_ & ->)|(h & c & _ & L & E1 & _ & ->)]; [now apply Z|].
    left. split; [|intros ? ? _; unfold turns; now rewrite CO]. eapply fewer_trans; [|apply fewer_tell_disconnection]. eapply (fewer_erase s s _ h); [reflexivity|apply fewer_refl].
  - (* Inquiry *) injection H as <- <-. apply Z. unfold receive_inquiry. repeat match goal with |- context [if ?b then _ else _] => destruct b end; reflexivity.
  - (* Page *) injection H as H. unfold receive_page in H. apply Z.
    destruct (negb (page_scan_enable s)); [now injection H as <- <-|]. destruct (negb _); [now injection H as <- <-|].
    destruct (has_acl_with _ s); [now injection H as <- <-|]. destruct (page_scan s); now injection H as <- <-.
  - (* PageResponse *) apply response_effect in H; auto. destruct H as [(_ & -> & _)|(P & _ & h & N & _ & E1 & _)]; [now apply Z|].
    right. left. split; [|intros c; unfold turns; now rewrite CO]. eexists h, _. split; [|exact E1]. cbn [acl_peer]. unfold paging in P. destruct (page s) as [pg|] eqn:G; [|discriminate]. apply list_eqb_eq in P. rewrite <- P. now apply (conn_page s K).
  - (* PageReject *) injection H as H. unfold receive_page_reject in H. apply Z. destruct (paging (source p) s); now injection H as <- <-.
  - (* ExtendedFeaturesRequest *) unbind H. injection H as <- <-. apply Z. unfold receive_extended_request in E. match type of E with context [get_features cfg s ?m] => destruct (get_features cfg s m) end; [|discriminate]. now injection E as <-.
  - (* ScoRequest *) unfold receive_sco_request in H. apply Z. destruct (has_pending_sco order (source p) s); [now injection H as <- <-|].
    unbind H. injection H as <- <-. unfold create_sco in E. destruct (get_unused_handle _ _ _ _) as [[h' l]|]; [|discriminate]. now injection E as <- <-.
  - (* ScoResponse *) unfold receive_sco_response in H. apply Z. destruct (sco_of order (source p) s) as [[h c]|]; [|now injection H as <- <-].
    destruct (st =? SUCCESS); [|no_stream H; now injection H as <- <-; cbn; rewrite ?acls_cancel_sco].
    unbind H. injection H as <- <-. unfold accept_given in E. now apply acls_open_stream in E.
  - (* ScoBye *) injection H as <- <-. apply Z. unfold receive_sco_bye. destruct (sco_of order (source p) s) as [[h c]|]; auto.
    destruct (tell_disconnection_tables now h reason (close_sco h s)) as (-> & _). apply close_sco_tables.
  - (* SwitchRequest *) injection H as <- <-. unfold receive_switch_request. destruct (acl_of (source p) s) as [[h c]|] eqn:F.
    2:{ left. split; [apply fewer_refl|discriminate]. }
    destruct (N.testbit (acl_policy c) 0) eqn:B.
    + right. right. exists h, c. split; auto. split; [unfold turns; now rewrite CO|]. match goal with |- context [if ?b then _ else _] => destruct b end; reflexivity.
    + left. split; [now apply (fewer_same s s), fewer_refl|]. intros h' c' [= <- <-]. unfold turns. now rewrite CO.
  - (* SwitchResponse *) injection H as <- <-. unfold receive_switch_response. destruct (acl_of (source p) s) as [[h c]|] eqn:F.
    2:{ left. split; [apply fewer_refl|discriminate]. }
    destruct (acl_lookup _ _ _ _ C F) as (L & _). cbv zeta. destruct (st =? SUCCESS) eqn:B.
    + right. right. exists h, c. split; auto. split; [unfold turns; now rewrite CO|]. match goal with |- context [if ?b then _ else _] => destruct b end; reflexivity.
    + left. split; [|intros h' c' [= <- <-]; unfold turns; now rewrite CO].
      apply (fewer_same s (with_acls (put (acls s) h (with_acl_role (acl_role c) c)) s)); [|eapply fewer_put; [apply fewer_refl|exact L|reflexivity|reflexivity]]. match goal with |- context [if ?b then _ else _] => destruct b end; reflexivity.
Qed.
Lemma run_tasks_fewer : forall now limit fuel s s' out, core s -> run_tasks order now limit fuel s = Ok (s', out) -> fewer s s'.
Proof.
  intros now limit. induction fuel as [|fuel IH]; cbn [run_tasks]; intros s s' out C H; [injection H as <- <-; apply fewer_refl|].
  destruct (queue s) as [|t q] eqn:EQ; [injection H as <- <-; apply fewer_refl|].
  destruct ((due t <=? now) && (ident t <? limit)); [|injection H as <- <-; apply fewer_refl]. unbind H. injection H as <- <-.
  eapply fewer_trans; [|eapply IH; [|eassumption]; eapply core_run_job; eassumption].
  assert (Z : forall x, acls x = acls s -> fewer s x) by (intros x EX; now apply (fewer_same s s), fewer_refl).
  pose proof (core_pop t q s C EQ) as C1. unfold run_job in E. destruct (what_to_do t); try (injection E as <- <-; apply Z; reflexivity).
  - unfold answering in E. unbind E. injection E as <- <-. apply (fewer_trans s (with_queue q s)); [now apply Z|]. eapply fewer_check_link; eassumption.
  - unfold silent in E. injection E as <- <-. apply Z. unfold send_sco. cbn [scos with_queue]. now destruct (lookup (scos s) h).
Qed.
Lemma tick_fewer : forall now s s' out, core s -> tick order now s = Ok (s', out) -> fewer s s'.
Proof.
  intros now s s' out C H. unfold tick in H. unbind H. injection H as <- <-. apply run_tasks_fewer in E; auto. eapply fewer_trans; [exact E|].
  assert (A1 : acls b0 = acls b) by (unfold do_paging in E0; destruct (page b) as [pg|]; [|now injection E0 as <- <-]; destruct (_ <=? _); [now injection E0 as <- <-|]; destruct (_ && _); now injection E0 as <- <-).
  assert (A2 : acls b1 = acls b0) by (unfold do_inquiry in E1; destruct (inquiry b0) as [pg|]; [|now injection E1 as <- <-]; destruct (_ <=? _); [now injection E1 as <- <-|]; destruct (_ <=? _); now injection E1 as <- <-).
  apply (fewer_same b b); [congruence|apply fewer_refl].
Qed.

(** * The role after a step *)
Definition turning (o : op) (x : addr) (s : bredr) (c : acl_link) : bool :=
  match o with Receive _ p => for_me p s && list_eqb (source p) x && turns p c | _ => false end.
Theorem role_step : forall h s now o s' st out x k c k' c', history order cfg h s -> step order cfg now s o = Ok (s', st, out) ->
  acl_of x s = Some (k, c) -> acl_of x s' = Some (k', c') -> acl_role c' = (if turning o x s c then other (acl_role c) else acl_role c).
Proof.
  intros h s now o s' st out x k c k' c' H E F F'. pose proof (core_history order cfg any_order _ _ H) as C. pose proof (conn_history order cfg any_order _ _ H) as K.
  assert (C' : core s') by (eapply core_step; eassumption).
  destruct (acl_lookup _ _ _ _ C F) as (L & P). destruct (acl_lookup _ _ _ _ C' F') as (L' & P').
  assert (FW : fewer s s' -> acl_role c' = acl_role c).
  { intros FW. destruct (FW _ _ L') as (d & LD & PD & RD). assert (k' = k) by (eapply (one_peer order cfg any_order); [exact H|exact F|apply lookup_pair, LD|congruence]). subst k'. congruence. }
  assert (OM : one_more s s' -> acl_role c' = acl_role c).
  { intros (n & d & N & EA). rewrite EA in L'. assert (LK : lookup (acls s) k' = Some c').
    { apply lookup_pair in L'. apply in_app_or in L'. destruct L' as [L'|[[= -> ->]|[]]]; [apply in_lookup_nodup; auto; apply (HandlesProofs.tinv_nodup _ _ _ _ (core_acl s C))|].
      elim N. rewrite P', <- P. apply in_map_iff. exists (k, c). split; auto. now apply lookup_pair. }
    assert (k' = k) by (eapply (one_peer order cfg any_order); [exact H|exact F|apply lookup_pair, LK|congruence]). subst k'. congruence. }
  destruct o as [cm|k1 pb bc d|k1 d|rssi p|]; cbn [step] in E; unbind E; injection E as <- <- <-; cbn [turning].
  - destruct (command_links _ _ _ _ _ _ C E0); auto.
  - apply FW. apply (fewer_same s s); [|apply fewer_refl]. unfold handle_acl in E0. destruct (negb _); [discriminate|]. destruct (lookup (acls s) k1); now injection E0 as <-.
  - apply FW. apply (fewer_same s s); [|apply fewer_refl]. unfold send_sco. now destruct (lookup (scos s) k1).
  - unfold receive in E0. destruct (for_me p s); [|injection E0 as <- <-; apply FW, fewer_refl]. cbn [andb].
    assert (C1 : core (heard_from now (source p) s)) by now apply core_heard. assert (K1 : conn (heard_from now (source p) s)) by (eapply conn_alike; [now apply heard_alike|exact K]).
    assert (NT : (forall d, acl_of (source p) s = Some (k, d) -> turns p (with_last_heard now d) = false) -> list_eqb (source p) x && turns p c = false).
    { intros Q. destruct (list_eqb (source p) x) eqn:EX; auto. apply list_eqb_eq in EX. rewrite EX in Q. specialize (Q c F). exact Q. }
    destruct (dispatch_links _ _ _ _ _ _ C1 K1 E0) as [(FE & NN)|[((n & d & N & EA) & NN)|(n & d & G & TU & EA)]].
    + rewrite NT; [apply FW; eapply fewer_trans; [now apply fewer_heard|exact FE]|]. intros d Q. exact (NN k _ (acl_of_heard now _ s k d C Q)).
    + assert (F1 : fewer s (heard_from now (source p) s)) by now apply fewer_heard.
      assert (LK : lookup (acls (heard_from now (source p) s)) k' = Some c').
      { rewrite EA in L'. apply lookup_pair in L'. apply in_app_or in L'. destruct L' as [L'|[[= -> ->]|[]]]; [apply in_lookup_nodup; auto; apply (HandlesProofs.tinv_nodup _ _ _ _ (core_acl _ C1))|].
        elim N. rewrite P', <- P. assert (Q : peers (heard_from now (source p) s) = peers s) by apply (heard_alike now (source p) s C). rewrite Q. apply in_map_iff. exists (k, c). split; auto. now apply lookup_pair. }
      destruct (F1 _ _ LK) as (e & LE & PE & RE). assert (k' = k) by (eapply (one_peer order cfg any_order); [exact H|exact F|apply lookup_pair, LE|congruence]). subst k'. assert (e = c) by congruence. subst e.
      rewrite NT; [exact RE|]. intros e _. apply NN.
    + destruct (acl_of (source p) s) as [[n0 d0]|] eqn:FS; [|rewrite (acl_of_heard_none _ _ _ FS) in G; congruence].
      rewrite (acl_of_heard _ _ _ _ _ C FS) in G. injection G as <- <-.
      destruct (list_eqb (source p) x) eqn:EX; cbn [andb].
      * apply list_eqb_eq in EX. rewrite EX in FS. rewrite F in FS. injection FS as <- <-. assert (T1 : turns p c = true) by exact TU. rewrite T1.
        rewrite EA, lookup_put in L'. destruct (N.eqb_spec k' k) as [->|D]; [now injection L' as <-|].
        destruct (fewer_heard now (source p) s C _ _ L') as (e & LE & PE & _). elim D. eapply (one_peer order cfg any_order); [exact H|exact F|apply lookup_pair, LE|congruence].
      * destruct (acl_lookup _ _ _ _ C FS) as (LS & PS). rewrite EA, lookup_put in L'. destruct (N.eqb_spec k' n0) as [->|D].
        { injection L' as <-. cbn [acl_peer with_acl_role with_last_heard] in P'. rewrite PS in P'. rewrite P', list_eqb_refl in EX. discriminate. }
        destruct (fewer_heard now (source p) s C _ _ L') as (e & LE & PE & RE). assert (k' = k) by (eapply (one_peer order cfg any_order); [exact H|exact F|apply lookup_pair, LE|congruence]). subst k'. congruence.
  - apply FW. now apply tick_fewer in E0.
Qed.
End WithOrder.
