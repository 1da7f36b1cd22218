(** The BR/EDR controller and the clock: what is scheduled is done by the next tick, links
    are watched. *)
From Coq Require Import Permutation.
From Verif Require Import Prelude Table Sco Bredr BredrBase BredrInv BredrConn BredrSpec BredrRefine.
From Verif Require Handles HandlesProofs.
Import Handles(get_unused_handle, kAclRangeStart, kAclRangeEnd, kScoRangeStart, kScoRangeEnd).
Open Scope N_scope.

(** The jobs done at the first tick after they are scheduled *)
Definition prompt (j : job) : bool := match j with CheckLink _ | Stream _ => false | _ => true end.
Definition is_stream (j : job) : bool := match j with Stream _ => true | _ => false end.

(** The events that are scheduled; the others are sent at once *)
Definition scheduled_event (e : event) : bool :=
  match e with
  | ConnectionComplete _ _ _ _ | DisconnectionComplete _ _ _ | QosComplete _ _ _ _ _ _ _ | RoleChange _ _ _ | CompletedPackets _ _
  | SynchronousComplete _ _ _ _ _ _ _ _ _ => true
  | _ => false
  end.
(** The jobs that a step may schedule; [acl_ok] for those of the data of the host *)
Definition usual_job (acl_ok : bool) (j : job) : bool :=
  match j with
  | Tell (CompletedPackets _ _) => acl_ok
  | Tell e => scheduled_event e
  | Transmit p => if is_acl p then acl_ok else true
  | _ => true
  end.

Section Heard.
(** The peers that may be heard, and whether the host sends data *)
Variable heard_of : addr -> Prop.
Variable acl_ok : bool.

(** How a step may change the queue and the links *)
Record ext (now : N) (s s' : bredr) : Prop := Ext {
  ext_new : forall t, In t (queue s') -> In t (queue s) \/
    (next_id s <= ident t /\ now <= due t /\ (prompt (what_to_do t) = true -> due t = now));
  ext_kind : forall t, In t (queue s') -> In t (queue s) \/ usual_job acl_ok (what_to_do t) = true;
  ext_keep : forall t, In t (queue s) -> is_stream (what_to_do t) = false -> In t (queue s');
  ext_id : next_id s <= next_id s';
  ext_address : address s' = address s;
  ext_links : forall h c', lookup (acls s') h = Some c' ->
    (exists c, lookup (acls s) h = Some c /\ acl_peer c' = acl_peer c /\
       (last_heard c' = last_heard c \/ (last_heard c' = now /\ heard_of (acl_peer c')))) \/
    (last_heard c' = now /\ heard_of (acl_peer c') /\ exists t, In t (queue s') /\ what_to_do t = CheckLink h /\ due t = now + 1500000) }.

Lemma ext_refl : forall now s, ext now s s.
Proof. intros. constructor; auto; [lia|]. intros h c' L. left. eauto 6. Qed.
Lemma ext_trans : forall now a b c, ext now a b -> ext now b c -> ext now a c.
Proof.
  intros now a b c [A1 A0 A2 A3 A5 A4] [B1 B0 B2 B3 B5 B4]. constructor.
  - intros t I. apply B1 in I. destruct I as [I|(I1 & I2 & I3)]; [now apply A1|]. right. split; [lia|auto].
  - intros t I. apply B0 in I. destruct I as [I|I]; auto.
  - auto.
  - lia.
  - congruence.
  - intros h c' L. destruct (B4 h c' L) as [(d & L' & P & E)|E].
    + destruct (A4 h d L') as [(d' & L'' & P' & E')|(E' & H' & t & I & W & D)].
      * left. exists d'. split; auto. split; [congruence|]. destruct E as [E|E]; auto. rewrite E. destruct E' as [E'|(E' & E'')]; auto. right. rewrite P. auto.
      * right. split; [destruct E as [->|(-> & _)]; auto|]. split; [now rewrite P|]. exists t. split; auto. apply B2; auto. now rewrite W.
    + auto.
Qed.
Lemma ext_schedule : forall now t j s0 s, now <= t -> (prompt j = true -> t = now) -> usual_job acl_ok j = true -> ext now s0 s -> ext now s0 (schedule t j s).
Proof.
  intros now t j s0 s L P U A. eapply ext_trans; [exact A|]. constructor; fields.
  - intros u I. apply in_insert in I. destruct I as [->|I]; auto. right. fields. split; [lia|auto].
  - intros u I. apply in_insert in I. destruct I as [->|I]; auto.
  - intros u I _. apply in_insert. now right.
  - lia.
  - reflexivity.
  - intros h c' E. left. eauto 6.
Qed.
Lemma ext_easy : forall now s s' s'', acls s'' = acls s' -> address s'' = address s' -> queue s'' = queue s' -> next_id s'' = next_id s' -> ext now s s' -> ext now s s''.
Proof.
  intros now s s' s'' E1 E0 E2 E3 A. eapply ext_trans; [exact A|]. constructor; rewrite ?E1, ?E2, ?E3; auto; [lia|].
  intros h c' L. left. eauto 6.
Qed.
Lemma ext_put : forall now s0 s h c c', ext now s0 s -> lookup (acls s) h = Some c -> acl_peer c' = acl_peer c ->
  (last_heard c' = last_heard c \/ (last_heard c' = now /\ heard_of (acl_peer c'))) ->
  ext now s0 (with_acls (put (acls s) h c') s).
Proof.
  intros now s0 s h c c' A L P E. eapply ext_trans; [exact A|]. constructor; fields; auto; [lia|].
  intros k d. rewrite lookup_put. destruct (N.eqb_spec k h) as [->|D]; [|intros L'; left; eauto 6].
  intros [= <-]. left. eauto 6.
Qed.
Lemma ext_erase : forall now s0 s h, ext now s0 s -> ext now s0 (with_acls (erase (acls s) h) s).
Proof.
  intros now s0 s h A. eapply ext_trans; [exact A|]. constructor; fields; auto; [lia|].
  intros k d. rewrite lookup_erase. destruct (k =? h); [discriminate|]. intros L. left. eauto 6.
Qed.
Lemma ext_stop_stream : forall now s0 s h c, core s -> In (h, c) (scos s) -> ext now s0 s -> ext now s0 (stop_stream c s).
Proof.
  intros now s0 s h c C I A. eapply ext_trans; [exact A|]. unfold stop_stream. destruct (sco_stream c) as [i|] eqn:E; [|apply ext_refl].
  constructor; fields; auto; [| | |lia|].
  - intros t J. left. eapply in_remove_task, J.
  - intros t J. left. eapply in_remove_task, J.
  - intros t J P. apply remove_task_in; auto. intros F. destruct (core_streams s C h c i I E) as (_ & T).
    destruct (T t J F) as (h' & W). now rewrite W in P.
  - intros k d L. left. eauto 6.
Qed.
Lemma ext_close_sco : forall now s0 s h, core s -> ext now s0 s -> ext now s0 (close_sco h s).
Proof.
  intros now s0 s h C A. unfold close_sco. destruct (lookup (scos s) h) as [c|] eqn:L; auto. cbv zeta.
  apply (ext_easy now s0 (stop_stream c s)); try reflexivity. eapply ext_stop_stream; eauto. apply lookup_pair, L.
Qed.
Lemma ext_cancel_sco : forall now order a s0 s, ext now s0 s -> ext now s0 (cancel_sco order a s).
Proof.
  intros now order a s0 s A. unfold cancel_sco. destruct (sco_of order a s) as [[h c]|]; auto. now apply (ext_easy now s0 s).
Qed.
Lemma ext_tell_disconnection : forall now h r s0 s, ext now s0 s -> ext now s0 (tell_disconnection now h r s).
Proof. intros. unfold tell_disconnection. destruct (unmasked s 5); auto. apply ext_schedule; auto; [lia..]. Qed.

Section WithOrder.
Variable order : table sco_link -> table sco_link.
Variable cfg : config.
Hypothesis any_order : forall t, Permutation (order t) t.

Ltac ext_tac :=
  cbn [fst snd]; repeat first
  [ apply ext_refl
  | match goal with A : forall r p, ext _ _ _ |- _ => apply A end
  | match goal with |- ext _ _ (schedule _ _ _) => apply ext_schedule; [lia|first [reflexivity|discriminate]|reflexivity|] end
  | match goal with |- ext _ _ (transmit _ _ _) => apply ext_schedule; [lia|reflexivity|reflexivity|] end
  | match goal with |- ext _ _ (sco_answer _ _ _ _ _) => apply ext_schedule; [lia|reflexivity|reflexivity|] end
  | match goal with |- ext _ _ (tell _ _ _) => apply ext_schedule; [lia|reflexivity|reflexivity|] end
  | match goal with |- ext ?n _ (with_scos _ ?s) => apply (ext_easy n _ s); [reflexivity..|] end
  | match goal with |- ext ?n _ (with_last_sco _ ?s) => apply (ext_easy n _ s); [reflexivity..|] end
  | match goal with |- ext ?n _ (with_links _ ?s) => apply (ext_easy n _ s); [reflexivity..|] end
  | match goal with |- ext ?n _ (with_page _ ?s) => apply (ext_easy n _ s); [reflexivity..|] end
  | match goal with |- ext ?n _ (with_page_scan _ ?s) => apply (ext_easy n _ s); [reflexivity..|] end
  | match goal with |- ext ?n _ (with_inquiry _ ?s) => apply (ext_easy n _ s); [reflexivity..|] end
  | apply ext_cancel_sco | apply ext_tell_disconnection | apply ext_erase
  | match goal with |- ext _ _ (if ?b then _ else _) => destruct b end
  | match goal with |- ext _ _ (fst (if ?b then _ else _)) => destruct b end
  | match goal with |- ext _ _ (snd (if ?b then _ else _)) => destruct b end
  | assumption ].

Lemma ext_close_acl : forall now h s0 s s', ext now s0 s -> close_acl order h s = Ok s' -> ext now s0 s'.
Proof.
  intros now h s0 s s' A. unfold close_acl. destruct (lookup (acls s) h) as [c|]; [|now intros [= <-]].
  destruct (sco_of order (acl_peer c) s); [discriminate|]. intros [= <-]. ext_tac.
Qed.
Lemma ext_remove_link : forall now a s0 s s', ext now s0 s -> remove_link a s = Ok s' -> ext now s0 s'.
Proof. intros now a s0 s s' A H. apply remove_link_effect in H. destruct H as (_ & ->). ext_tac. Qed.

Lemma ext_disconnect : forall now h r r' s st s', core s -> disconnect order now h r r' s = Ok (st, s') -> ext now s s'.
Proof.
  intros now h r r' s st s' C. unfold disconnect. destruct (lookup (scos s) h) as [c|].
  - intros [= <- <-]. apply ext_tell_disconnection. apply ext_close_sco; [now apply core_schedule|ext_tac].
  - destruct (lookup (acls s) h) as [c|]; [|intros [= <- <-]; ext_tac]. intros H. unbind H. injection H as <- <-.
    eapply ext_remove_link; [|eassumption]. apply ext_tell_disconnection. eapply ext_close_acl; [|eassumption].
    apply ext_schedule; [lia|reflexivity|reflexivity|]. destruct (sco_of order (acl_peer c) s) as [[sh sc]|]; [|ext_tac].
    apply ext_tell_disconnection. apply ext_close_sco; [now apply core_schedule|ext_tac].
Qed.
Lemma ext_check_link : forall now h s s', core s -> check_link order now h s = Ok s' -> ext now s s'.
Proof.
  intros now h s s' C. unfold check_link. destruct (lookup (acls s) h) as [c|]; [|intros [= <-]; ext_tac].
  destruct (_ <? _); [|destruct (_ <? _)].
  - intros H. unbind H. injection H as <-. eapply ext_disconnect; eassumption.
  - intros [= <-]. ext_tac.
  - intros [= <-]. ext_tac.
Qed.

(** A new link is watched *)
Lemma ext_open : forall now a r p s h l s0, ext now s0 s -> ~ In h (keys (acls s)) -> heard_of a ->
  ext now s0 (schedule (now + 1500000) (CheckLink h) (with_last_acl l (with_acls (acls s ++ [(h, AclLink a r p now)]) s))).
Proof.
  intros now a r p s h l s0 A N HO. eapply ext_trans; [exact A|]. constructor; fields.
  - intros u I. apply in_insert in I. destruct I as [->|I]; auto. right. fields. split; [lia|]. split; [lia|discriminate].
  - intros u I. apply in_insert in I. destruct I as [->|I]; auto.
  - intros u I _. apply in_insert. now right.
  - lia.
  - reflexivity.
  - intros k d. rewrite <- put_absent by exact N. rewrite lookup_put. destruct (N.eqb_spec k h) as [->|D].
    + intros [= <-]. right. split; auto. split; auto. eexists. split; [apply in_insert; left; reflexivity|]. split; reflexivity.
    + intros L. left. eauto 6.
Qed.

Lemma ext_open_stream : forall now h s0 s s', ext now s0 s -> open_stream order now h s = Ok s' -> ext now s0 s'.
Proof.
  intros now h s0 s s' A. unfold open_stream. destruct (lookup (scos s) h) as [c|]; [|intros [= <-]; ext_tac].
  destruct (sco_stream c); [discriminate|]. destruct (sco_spoofed c); [|intros [= <-]; ext_tac].
  destruct (sco_of order (sco_peer c) s) as [[h' c']|]; [|discriminate]. unfold start_stream. intros [= <-]. ext_tac.
Qed.
Lemma ext_accept_negotiated : forall now h c p s l s', accept_negotiated order now h c p s = Ok (l, s') -> ext now s s'.
Proof.
  intros now h c p s l s'. unfold accept_negotiated. destruct (negotiate _ _ _) as [k|]; [|intros [= <- <-]; ext_tac].
  intros H. unbind H. injection H as <- <-. eapply ext_open_stream; [|exact E]. ext_tac.
Qed.
Lemma ext_create_sco : forall now a p st sp leg s h s', create_sco a p st sp leg s = Ok (h, s') -> ext now s s'.
Proof.
  intros now a p st sp leg s h s'. unfold create_sco. destruct (get_unused_handle _ _ _ _) as [[h' l]|]; [|discriminate]. intros [= <- <-]. ext_tac.
Qed.
Lemma ext_setup_sync : forall now h p sp leg s st s', setup_sync order now h p sp leg s = Ok (st, s') -> ext now s s'.
Proof.
  intros now h p sp leg s st s'. unfold setup_sync. destruct (lookup (acls s) h) as [c|]; [|intros [= <- <-]; ext_tac].
  destruct (has_pending_sco order (acl_peer c) s); [intros [= <- <-]; ext_tac|]. intros H. unbind H. injection H as <- <-.
  apply (ext_create_sco now) in E. ext_tac.
Qed.
Lemma ext_accept_sync : forall now a p s st s', accept_sync order now a p s = Ok (st, s') -> ext now s s'.
Proof.
  intros now a p s st s'. unfold accept_sync. destruct (sco_of order a s) as [[h c]|]; [|intros [= <- <-]; ext_tac].
  destruct (is_pending c); [|intros [= <- <-]; ext_tac]. intros H. unbind H. injection H as <- <-.
  apply ext_accept_negotiated in E. destruct o; ext_tac.
Qed.
Lemma ext_accept_connection : forall now a try s st s', core s -> heard_of a -> accept_connection order now a try s = Ok (st, s') -> ext now s s'.
Proof.
  intros now a try s st s' C HO. unfold accept_connection. destruct (paged_by a s).
  - destruct (has_acl_with a s); [intros [= <- <-]; ext_tac|]. intros H. unbind H. injection H as <- <-.
    destruct (open_effect order _ _ _ _ _ _ _ _ C E E0) as (N & _ & l & ->). apply add_link_effect in E1. destruct E1 as (_ & ->).
    assert (A : forall r p, ext now s (schedule (now + 1500000) (CheckLink n) (with_last_acl l (with_acls (acls s ++ [(n, AclLink a r p now)]) s))))
      by (intros; apply ext_open; [apply ext_refl|exact N|exact HO]).
    cbv zeta. ext_tac.
  - destruct (sco_of order a s) as [[h c]|]; [|intros [= <- <-]; ext_tac]. destruct (is_pending c); [|intros [= <- <-]; ext_tac].
    intros H. unbind H. injection H as <- <-. apply ext_accept_negotiated in E. destruct o; ext_tac.
Qed.

Lemma ext_fold : forall (T : Type) now (f : bredr -> T -> bredr) (l : list T) s0,
  (forall s x, ext now s0 s -> ext now s0 (f s x)) -> forall s, ext now s0 s -> ext now s0 (fold_left f l s).
Proof. intros T now f l s0 H. induction l as [|x l IH]; cbn; auto. Qed.
Lemma ext_reset : forall now s, core s -> ext now s (reset order now s).
Proof.
  intros now s C. unfold reset.
  assert (A1 : ext now s (disconnect_all order now REMOTE_USER_TERMINATED s)).
  { unfold disconnect_all. apply ext_fold; [intros; ext_tac|]. apply ext_fold; [intros; ext_tac|]. apply ext_refl. }
  assert (C1 : core (disconnect_all order now REMOTE_USER_TERMINATED s)).
  { unfold disconnect_all. apply core_fold; [intros; now apply core_schedule|]. apply core_fold; [intros; now apply core_schedule|]. exact C. }
  set (s1 := disconnect_all _ _ _ _) in *. clearbody s1.
  assert (A2 : ext now s (fold_left (fun s e => stop_stream (snd e) s) (scos s1) s1)).
  { assert (G : forall l s0, core s0 -> ext now s s0 -> (forall e, In e l -> In e (scos s0)) -> ext now s (fold_left (fun s e => stop_stream (snd e) s) l s0)).
    { induction l as [|[h c] l IH]; cbn [fold_left]; intros s0 C0 A0 I; auto. apply IH.
      - now apply core_stop_stream.
      - cbn [snd]. eapply ext_stop_stream; [exact C0|apply I; now left|exact A0].
      - intros e J. cbn [snd]. rewrite scos_stop_stream. apply I. now right. }
    apply G; auto. }
  set (s2 := fold_left _ _ _) in *. clearbody s2. destruct A2 as [B1 B0 B2 B3 B5 B4]. constructor; cbn [queue next_id with_next_id with_queue new_bredr acls address]; auto.
  discriminate.
Qed.

Lemma ext_command : forall now s c st s' out, core s -> (forall a try, c = AcceptConnection a try -> heard_of a) -> run_command order cfg now s c = Ok (st, s', out) -> ext now s s'.
Proof.
  intros now s c st s' out C HO H. destruct c; cbn [run_command] in H; unfold quiet in H;
    try (injection H as <- <- <-; cbn [fst snd]);
    try (unbind H; injection H as <- <- <-; cbn [fst snd]);
    try (apply (ext_easy now s s); [reflexivity..|apply ext_refl]).
  - unfold start_inquiry. destruct (_ || _); [ext_tac|]. destruct (inquiry s); ext_tac.
  - unfold cancel_inquiry. destruct (inquiry s); ext_tac.
  - unfold create_connection. destruct (page s); [ext_tac|]. destruct (has_acl_with a s); [ext_tac|]. destruct (paged_by a s); ext_tac.
  - unfold cancel_connection. destruct (paging a s); ext_tac.
  - eapply ext_disconnect; eassumption.
  - eapply ext_accept_connection; eauto.
  - unfold reject_connection. destruct (paged_by a s); ext_tac.
  - unfold change_packet_type. destruct (has (acls s) h); ext_tac.
  - unfold remote_name. ext_tac.
  - unfold ask_peer. destruct (lookup (acls s) h); ext_tac.
  - unfold ask_peer. destruct (lookup (acls s) h); ext_tac.
  - unfold ask_peer. destruct (lookup (acls s) h); ext_tac.
  - unfold ask_peer. destruct (lookup (acls s) h); ext_tac.
  - eapply ext_setup_sync; eassumption.
  - eapply ext_setup_sync; eassumption.
  - eapply ext_accept_sync; eassumption.
  - unfold reject_sync. destruct (has_pending_sco order a s); ext_tac.
  - destruct (enhanced_ok p e); [|injection H as <- <- <-; ext_tac]. unbind H. injection H as <- <- <-. eapply ext_setup_sync; eassumption.
  - destruct (enhanced_ok p e); [|injection H as <- <- <-; ext_tac]. unbind H. injection H as <- <- <-. eapply ext_accept_sync; eassumption.
  - unfold qos_setup. destruct (negb _); [ext_tac|]. destruct (2 <? service); ext_tac.
  - destruct (lookup (acls s) h); injection H as <- <- <-; ext_tac.
  - unfold switch_role. destruct (acl_of a s) as [[h c]|]; [|ext_tac]. destruct (sco_of order a s); ext_tac.
  - unfold write_link_policy. destruct (lookup (acls s) h) as [c|] eqn:L; [|ext_tac]. destruct (7 <? n); [ext_tac|].
    cbn [snd]. apply (ext_put now s s h c); auto. apply ext_refl.
  - destruct (7 <? n); injection H as <- <- <-; [ext_tac|]. apply (ext_easy now s s); [reflexivity..|apply ext_refl].
  - now apply ext_reset.
Qed.

Lemma ext_heard : forall now a s, core s -> heard_of a -> ext now s (heard_from now a s).
Proof.
  intros now a s C HO. unfold heard_from. destruct (acl_of a s) as [[h c]|] eqn:F; [|ext_tac].
  destruct (acl_lookup a s h c C F) as (L & P). apply (ext_put now s s h c); auto; [apply ext_refl|]. right. split; auto. cbn. now rewrite P.
Qed.
Lemma ext_dispatch : forall now rssi p s s' out, core s -> heard_of (source p) -> dispatch order cfg now rssi p s = Ok (s', out) -> ext now s s'.
Proof.
  intros now rssi p s s' out C HO H. unfold dispatch in H. destruct (content p); unfold silent, answering in H;
    try (injection H as <- <-); try (ext_tac; fail).
  - unbind H. injection H as <- <-. apply bye_effect in E; auto. destruct E as [(_ & ->)|(h & c & _ & _ & _ & _ & ->)]; ext_tac.
  - unfold receive_inquiry. ext_tac.
  - injection H as H. unfold receive_page in H. destruct (negb (page_scan_enable s)); [injection H as <- <-; ext_tac|].
    destruct (negb _); [injection H as <- <-; ext_tac|]. destruct (has_acl_with _ s); [injection H as <- <-; ext_tac|]. destruct (page_scan s); injection H as <- <-; ext_tac.
  - unfold receive_page_response in H. destruct (paging (source p) s); [|injection H as <- <-; ext_tac]. unbind H. injection H as <- <-.
    destruct (open_effect order _ _ _ _ _ _ _ _ C E E0) as (N & _ & l & ->). apply add_link_effect in E1. destruct E1 as (_ & ->).
    assert (A : forall r q, ext now s (schedule (now + 1500000) (CheckLink n) (with_last_acl l (with_acls (acls s ++ [(n, AclLink (source p) r q now)]) s))))
      by (intros; apply ext_open; [apply ext_refl|exact N|exact HO]).
    ext_tac.
  - injection H as H. unfold receive_page_reject in H. destruct (paging (source p) s); injection H as <- <-; ext_tac.
  - unbind H. injection H as <- <-. unfold receive_extended_request in E. destruct (get_features cfg s page); [|discriminate]. injection E as <-. ext_tac.
  - unfold receive_sco_request in H. destruct (has_pending_sco order (source p) s); [injection H as <- <-; ext_tac|].
    unbind H. injection H as <- <-. eapply ext_create_sco; eassumption.
  - unfold receive_sco_response in H. destruct (sco_of order (source p) s) as [[h c]|]; [|injection H as <- <-; ext_tac].
    destruct (st =? SUCCESS).
    + unbind H. injection H as <- <-. unfold accept_given in E. eapply ext_open_stream; [|exact E]. ext_tac.
    + no_stream H. injection H as <- <-. ext_tac.
  - unfold receive_sco_bye. destruct (sco_of order (source p) s) as [[h c]|]; [|ext_tac]. apply ext_tell_disconnection. apply ext_close_sco; auto. ext_tac.
  - unfold receive_switch_request. destruct (acl_of (source p) s) as [[h c]|] eqn:F; [|ext_tac]. destruct (N.testbit _ 0); [|ext_tac].
    destruct (acl_lookup _ _ _ _ C F) as (L & _). set (t := transmit _ _ _).
    assert (A : ext now s (with_acls (put (acls t) h (with_acl_role (other (acl_role c)) c)) t)) by (apply (ext_put now s t h c); [unfold t; ext_tac|exact L|reflexivity|auto]).
    cbv zeta. ext_tac.
  - unfold receive_switch_response. destruct (acl_of (source p) s) as [[h c]|] eqn:F; [|ext_tac].
    destruct (acl_lookup _ _ _ _ C F) as (L & _). cbv zeta.
    assert (A : ext now s (with_acls (put (acls s) h (with_acl_role (if st =? SUCCESS then other (acl_role c) else acl_role c) c)) s))
      by (apply (ext_put now s s h c); [ext_tac|exact L|reflexivity|auto]).
    match goal with |- ext _ _ (if ?b then _ else _) => destruct b end; auto. apply ext_schedule; [lia|reflexivity|reflexivity|exact A].
Qed.

Lemma ext_step : forall now s o s' st out, core s -> o <> Tick ->
  (forall h b bc d, o = AclFromHost h b bc d -> acl_ok = true) ->
  (forall a try, o = Command (AcceptConnection a try) -> heard_of a) -> (forall rssi p, o = Receive rssi p -> for_me p s = true -> heard_of (source p)) ->
  step order cfg now s o = Ok (s', st, out) -> ext now s s'.
Proof.
  intros now s o s' st out C NT HD HA HR H. destruct o; cbn [step] in H; unbind H; try (injection H as <- <- <-).
  - eapply ext_command; try eassumption. intros a try ->. now apply (HA a try).
  - unfold handle_acl in E. destruct (negb _); [discriminate|]. injection E as <-. assert (OK : acl_ok = true) by eauto. destruct (lookup (acls s) h); (apply ext_schedule; [lia|reflexivity|exact OK|]); [|ext_tac].
    apply ext_schedule; [lia|reflexivity|exact OK|ext_tac].
  - unfold send_sco. destruct (lookup (scos s) h); ext_tac.
  - unfold receive in E. destruct (for_me p s) eqn:FM; [|injection E as <- <-; ext_tac]. specialize (HR rssi p eq_refl FM).
    eapply ext_trans; [apply ext_heard; [exact C|exact HR]|].
    eapply ext_dispatch; [now apply core_heard|exact HR|exact E].
  - congruence.
Qed.

(** * What a tick leaves *)

(** The jobs a job may schedule *)
Definition quiet_job (j : job) : bool :=
  match j with Transmit p => negb (is_acl p) | Tell (DisconnectionComplete _ _ _) | CheckLink _ | Stream _ => true | _ => false end.
Definition kin (s s' : bredr) : Prop := forall t, In t (queue s') -> In t (queue s) \/ quiet_job (what_to_do t) = true.
Lemma kin_refl : forall s, kin s s.
Proof. intros s t I. now left. Qed.
Lemma kin_trans : forall a b c, kin a b -> kin b c -> kin a c.
Proof. intros a b c A B t I. apply B in I. destruct I as [I|I]; auto. Qed.
Lemma kin_same : forall s0 s s', queue s' = queue s -> kin s0 s -> kin s0 s'.
Proof. intros s0 s s' E A t I. rewrite E in I. now apply A. Qed.
Lemma kin_schedule : forall t j s0 s, quiet_job j = true -> kin s0 s -> kin s0 (schedule t j s).
Proof. intros t j s0 s Q A u I. cbn [queue schedule with_queue with_next_id] in I. apply in_insert in I. destruct I as [->|I]; auto. Qed.
Lemma kin_tell_disconnection : forall now h r s0 s, kin s0 s -> kin s0 (tell_disconnection now h r s).
Proof. intros. unfold tell_disconnection. destruct (unmasked s 5); auto. now apply kin_schedule. Qed.
Lemma kin_close_sco : forall h s0 s, kin s0 s -> kin s0 (close_sco h s).
Proof.
  intros h s0 s A. unfold close_sco. destruct (lookup (scos s) h) as [c|]; auto. cbv zeta.
  apply (kin_same s0 (stop_stream c s)); [reflexivity|]. unfold stop_stream. destruct (sco_stream c); auto.
  intros t I. apply A. eapply in_remove_task, I.
Qed.
Lemma kin_disconnect : forall now h r r' s st s', disconnect order now h r r' s = Ok (st, s') -> kin s s'.
Proof.
  intros now h r r' s st s'. unfold disconnect. destruct (lookup (scos s) h) as [c|].
  - intros [= <- <-]. apply kin_tell_disconnection, kin_close_sco, kin_schedule; [reflexivity|apply kin_refl].
  - destruct (lookup (acls s) h) as [c|]; [|intros [= <- <-]; apply kin_refl]. intros H. unbind H. injection H as <- <-.
    apply remove_link_effect in E0. destruct E0 as (_ & ->).
    match goal with |- kin _ (with_links _ ?x) => apply (kin_same s x); [reflexivity|] end. apply kin_tell_disconnection.
    unfold close_acl in E. destruct (lookup (acls _) h) as [c'|]; [|injection E as <-; apply kin_schedule; [reflexivity|]].
    + destruct (sco_of order (acl_peer c') _); [discriminate|]. injection E as <-.
      match goal with |- kin _ (with_acls _ ?x) => apply (kin_same s x); [reflexivity|] end. apply kin_schedule; [reflexivity|].
      destruct (sco_of order (acl_peer c) s) as [[sh sc]|]; [|apply kin_refl].
      apply kin_tell_disconnection, kin_close_sco, kin_schedule; [reflexivity|apply kin_refl].
    + destruct (sco_of order (acl_peer c) s) as [[sh sc]|]; [|apply kin_refl].
      apply kin_tell_disconnection, kin_close_sco, kin_schedule; [reflexivity|apply kin_refl].
Qed.
Lemma kin_check_link : forall now h s s', check_link order now h s = Ok s' -> kin s s'.
Proof.
  intros now h s s'. unfold check_link. destruct (lookup (acls s) h) as [c|]; [|intros [= <-]; apply kin_refl].
  destruct (_ <? _); [|destruct (_ <? _)].
  - intros H. unbind H. injection H as <-. eapply kin_disconnect; eassumption.
  - intros [= <-]. apply kin_schedule; [reflexivity|]. apply kin_schedule; [reflexivity|apply kin_refl].
  - intros [= <-]. apply kin_schedule; [reflexivity|apply kin_refl].
Qed.

(** The links are watched: the check of each is due at the latest when it expires *)
Definition watched (now : N) (s : bredr) : Prop := forall h c, lookup (acls s) h = Some c ->
  last_heard c <= now /\ exists t, In t (queue s) /\ what_to_do t = CheckLink h /\ due t <= last_heard c + kTimeout.
Definition punctual (now : N) (s : bredr) : Prop := forall t, In t (queue s) -> prompt (what_to_do t) = true -> due t <= now.

Lemma watched_ext : forall now now' s s', now <= now' -> watched now s -> ext now' s s' -> watched now' s'.
Proof.
  intros now now' s s' L W A h c' E. destruct (ext_links _ _ _ A h c' E) as [(c & E' & _ & H)|(E' & _ & t & I & J & D)].
  - destruct (W h c E') as (B & t & I & J & D). split; [destruct H as [->|(-> & _)]; lia|]. exists t. split; [|split; auto].
    + apply (ext_keep _ _ _ A); auto. now rewrite J.
    + destruct H as [->|(-> & _)]; lia.
  - split; [lia|]. exists t. split; auto. split; auto. rewrite D, E'. unfold kTimeout. lia.
Qed.
Lemma punctual_ext : forall now now' s s', now <= now' -> punctual now s -> ext now' s s' -> punctual now' s'.
Proof.
  intros now now' s s' L P A t I Q. destruct (ext_new _ _ _ A t I) as [J|(_ & _ & J)]; [specialize (P t J Q); lia|]. rewrite J; auto. lia.
Qed.

(** During a run: [eligible] tasks are still to be run *)
Definition eligible (now limit : N) (t : task) : bool := (due t <=? now) && (ident t <? limit).
Record running (now limit : N) (s : bredr) : Prop := {
  run_fresh : forall t, In t (queue s) -> limit <= ident t -> now <= due t /\ quiet_job (what_to_do t) = true;
  run_id : limit <= next_id s;
  run_watched : watched now s;
  run_punctual : punctual now s }.

Lemma expired_gone : forall now h c s s', core s -> lookup (acls s) h = Some c -> lookup (scos s) h = None ->
  last_heard c + kTimeout < now -> check_link order now h s = Ok s' -> lookup (acls s') h = None.
Proof.
  intros now h c s s' C L LS X H. unfold check_link in H. rewrite L in H. apply N.ltb_lt in X. rewrite X in H. unbind H. injection H as <-.
  destruct (disconnect_effect order _ _ _ _ _ _ _ C E) as [(_ & _ & N & _)|[(_ & N & _)|(_ & _ & c' & L' & EA & _)]]; try congruence.
  rewrite EA, lookup_erase, N.eqb_refl. reflexivity.
Qed.
Lemma whole_ms_le : forall t, whole_ms t <= t.
Proof. intros t. unfold whole_ms. lia. Qed.

Lemma running_job : forall now limit t q s s' out, core s -> running now limit s -> queue s = t :: q -> eligible now limit t = true ->
  run_job order now t (with_queue q s) = Ok (s', out) ->
  running now limit s' /\ (forall u, In u (queue s') -> eligible now limit u = true -> In u q).
Proof.
  intros now limit t q s s' out C R EQ EL H. pose proof (core_pop t q s C EQ) as CP.
  apply andb_prop in EL. destruct EL as (E1 & E2). apply N.leb_le in E1. apply N.ltb_lt in E2.
  set (p := with_queue q s) in *.
  assert (NEW : forall x, ext now p x -> kin p x ->
     (forall u, In u (queue x) -> limit <= ident u -> now <= due u /\ quiet_job (what_to_do u) = true) /\ limit <= next_id x /\ punctual now x /\
     (forall u, In u (queue x) -> eligible now limit u = true -> In u q)).
  { intros x A K. split; [|split; [|split]].
    - intros u I L. destruct (ext_new _ _ _ A u I) as [J|(J1 & J2 & _)].
      + apply (run_fresh _ _ _ R); auto. rewrite EQ. now right.
      + split; auto. destruct (K u I) as [J|J]; auto. apply (run_fresh _ _ _ R); auto. rewrite EQ. now right.
    - pose proof (ext_id _ _ _ A). pose proof (run_id _ _ _ R). cbn [p next_id with_queue] in *. lia.
    - eapply punctual_ext; [reflexivity| |exact A]. intros u I P. apply (run_punctual _ _ _ R); auto. rewrite EQ. now right.
    - intros u I EL. apply andb_prop in EL. destruct EL as (_ & EL). apply N.ltb_lt in EL.
      destruct (ext_new _ _ _ A u I) as [J|(J & _)]; auto. pose proof (run_id _ _ _ R). cbn [p next_id with_queue] in J. lia. }
  assert (WP : (forall h, what_to_do t <> CheckLink h) -> watched now p).
  { intros NC h c L. destruct (run_watched _ _ _ R h c L) as (B & u & I & J & D). split; auto. exists u. split; auto.
    rewrite EQ in I. destruct I as [->|I]; auto. now elim (NC h). }
  assert (DONE : (forall h, what_to_do t <> CheckLink h) -> forall x, ext now p x -> kin p x ->
     running now limit x /\ (forall u, In u (queue x) -> eligible now limit u = true -> In u q)).
  { intros NC x A K. destruct (NEW x A K) as (N1 & N2 & N3 & N4). split; auto. constructor; auto.
    eapply watched_ext; [reflexivity|apply WP, NC|exact A]. }
  unfold run_job in H. destruct (what_to_do t) eqn:W.
  - injection H as <- <-. apply (DONE ltac:(discriminate)); [apply ext_refl|apply kin_refl].
  - injection H as <- <-. apply (DONE ltac:(discriminate)); [apply ext_refl|apply kin_refl].
  - injection H as <- <-. apply (DONE ltac:(discriminate)); [apply ext_refl|apply kin_refl].
  - injection H as <- <-. apply (DONE ltac:(discriminate)); [apply ext_schedule; [lia|reflexivity|reflexivity|apply ext_refl]|apply kin_schedule; [reflexivity|apply kin_refl]].
  - unfold answering in H. unbind H. injection H as <- <-.
    pose proof (ext_check_link _ _ _ _ CP E) as A. pose proof (kin_check_link _ _ _ _ E) as K.
    destruct (NEW _ A K) as (N1 & N2 & N3 & N4). split; auto. constructor; auto.
    intros k c' L'. destruct (N.eqb_spec k h) as [->|D].
    + destruct (lookup (acls p) h) as [c|] eqn:L.
      * destruct (run_watched _ _ _ R h c L) as (B & _).
        assert (SC : lookup (scos p) h = None).
        { destruct (lookup (scos p) h) as [z|] eqn:LS; auto. exfalso. apply lookup_pair in LS. apply lookup_pair in L.
          destruct (core_acl p CP) as [_ RA _]. destruct (core_sco p CP) as [_ RS _].
          apply (in_map fst) in LS. apply (in_map fst) in L. specialize (RA h L). specialize (RS h LS).
          unfold HandlesProofs.in_range in RA, RS. lia. }
        destruct (N.ltb_spec (last_heard c + kTimeout) now) as [X|X]; [rewrite (expired_gone now h c p x) in L'; auto; discriminate|].
        unfold check_link in E. rewrite L in E. apply N.ltb_ge in X. rewrite X in E. apply N.ltb_ge in X.
        destruct (N.ltb_spec (last_heard c + kTimeout / 2) now) as [Y|Y].
        -- injection E as <-. change (lookup (acls p) h = Some c') in L'. assert (c' = c) by congruence. subst c'. split; auto.
           eexists. split; [cbn [queue schedule with_queue with_next_id]; apply in_insert; left; reflexivity|]. split; [reflexivity|]. cbn [due].
           pose proof (whole_ms_le (last_heard c + kTimeout - now)). lia.
        -- injection E as <-. change (lookup (acls p) h = Some c') in L'. assert (c' = c) by congruence. subst c'. split; auto.
           eexists. split; [cbn [queue schedule with_queue with_next_id]; apply in_insert; left; reflexivity|]. split; [reflexivity|]. cbn [due].
           pose proof (whole_ms_le (last_heard c + kTimeout / 2 - now)).
           assert (kTimeout / 2 <= kTimeout) by (vm_compute; discriminate). lia.
      * unfold check_link in E. rewrite L in E. injection E as <-. congruence.
    + destruct (ext_links _ _ _ A k c' L') as [(c & L & _ & Hc)|(E' & _ & u & I & J & DU)].
      * destruct (run_watched _ _ _ R k c L) as (B & u & I & J & DU). split; [destruct Hc as [->|(-> & _)]; lia|]. exists u.
        split; [|split; auto; destruct Hc as [->|(-> & _)]; lia]. apply (ext_keep _ _ _ A); [|now rewrite J].
        rewrite EQ in I. destruct I as [->|I]; auto. congruence.
      * split; [lia|]. exists u. split; auto. split; auto. rewrite DU, E'. unfold kTimeout. lia.
  - unfold silent in H. injection H as <- <-. set (y := send_sco now h [0; 0; 0; 0; 0] p).
    assert (A : ext now p y) by (unfold y, send_sco; destruct (lookup (scos p) h); [apply ext_schedule; [lia|reflexivity|reflexivity|]|]; apply ext_refl).
    assert (K : kin p y) by (unfold y, send_sco; destruct (lookup (scos p) h); [apply kin_schedule; [reflexivity|]|]; apply kin_refl).
    destruct (DONE ltac:(discriminate) y A K) as ([R1 R2 R3 R4] & N). split.
    + constructor; cbn [queue next_id with_queue acls].
      * intros u I L. apply in_insert in I. destruct I as [->|I]; [cbn [ident] in L; lia|auto].
      * exact R2.
      * intros k c L. destruct (R3 k c L) as (B & u & I & J & D). split; auto. exists u. split; auto. cbn [queue with_queue]. apply in_insert. now right.
      * intros u I P. cbn [queue with_queue] in I. apply in_insert in I. destruct I as [->|I]; [discriminate|auto].
    + cbn [queue with_queue]. intros u I EL. apply in_insert in I. destruct I as [->|I]; auto.
      unfold eligible in EL. cbn [due ident] in EL. assert (F : now + 20000 <=? now = false) by (apply N.leb_gt; lia). now rewrite F in EL.
Qed.

Lemma filter_shorter : forall (T : Type) (f : T -> bool) l, (List.length (filter f l) <= List.length l)%nat.
Proof. intros T f. induction l as [|x l IH]; cbn; [lia|]. destruct (f x); cbn; lia. Qed.
Lemma NoDup_idents : forall s, good_queue s -> NoDup (queue s).
Proof. intros s G. eapply NoDup_map_inv, gq_nodup, G. Qed.

(** Everything that was due is done at the end of the run *)
Lemma run_complete : forall now limit fuel s s' out, core s -> running now limit s ->
  (List.length (filter (eligible now limit) (queue s)) <= fuel)%nat -> run_tasks order now limit fuel s = Ok (s', out) ->
  core s' /\ running now limit s' /\ (forall t, In t (queue s') -> eligible now limit t = false).
Proof.
  intros now limit. induction fuel as [|fuel IH]; cbn [run_tasks]; intros s s' out C R F H.
  - injection H as <- <-. split; auto. split; auto. intros t I. destruct (eligible now limit t) eqn:E; auto. exfalso.
    assert (J : In t (filter (eligible now limit) (queue s))) by (apply filter_In; now split). destruct (filter _ _); [destruct J|cbn in F; lia].
  - destruct (queue s) as [|t q] eqn:EQ; [injection H as <- <-; split; auto; split; auto; rewrite EQ; intros t []|].
    fold (eligible now limit t) in H. destruct (eligible now limit t) eqn:EL.
    + unbind H. injection H as <- <-. destruct (running_job _ _ _ _ _ _ _ C R EQ EL E) as (R' & N).
      pose proof (core_run_job order _ _ _ _ _ _ C EQ E) as C'. apply (IH b b0 l0); auto.
      cbn [filter] in F. rewrite EL in F. cbn [List.length] in F.
      enough (List.length (filter (eligible now limit) (queue b)) <= List.length (filter (eligible now limit) q))%nat by lia.
      apply NoDup_incl_length; [apply NoDup_filter, NoDup_idents, core_queue, C'|].
      intros u I. apply filter_In in I. apply filter_In. split; [now apply N|apply I].
    + injection H as <- <-. split; auto. split; auto.
      pose proof (gq_sorted _ (core_queue s C)) as SO. rewrite EQ in *.
      intros u I. destruct I as [<-|I]; auto. destruct SO as (SO & _). specialize (SO u I). unfold earlier in SO. rewrite before_spec in SO.
      unfold eligible in *. destruct (N.leb_spec (due u) now) as [D|D]; auto. cbn [andb]. apply N.ltb_ge.
      destruct (N.leb_spec (due t) now) as [D'|D']; [|lia]. cbn [andb] in EL. apply N.ltb_ge in EL.
      destruct (run_fresh _ _ _ R t) as (B & _); [rewrite EQ; now left|exact EL|lia].
Qed.

Lemma ext_do_paging : forall now s, ext now s (fst (do_paging now s)).
Proof.
  intros now s. unfold do_paging. destruct (page s) as [p|]; [|apply ext_refl]. destruct (_ <=? _); [ext_tac|].
  destruct (_ && _); [|apply ext_refl]. cbv zeta. ext_tac.
Qed.
Lemma ext_do_inquiry : forall now s, ext now s (fst (do_inquiry now s)).
Proof.
  intros now s. unfold do_inquiry. destruct (inquiry s) as [p|]; [|apply ext_refl]. destruct (_ <=? _); [ext_tac|].
  destruct (_ <=? _); [|apply ext_refl]. cbv zeta. ext_tac.
Qed.
Lemma kin_do_paging : forall now s, kin s (fst (do_paging now s)).
Proof.
  intros now s. unfold do_paging. destruct (page s) as [p|]; [|apply kin_refl]. destruct (_ <=? _); [now apply (kin_same s s); [|apply kin_refl]|].
  destruct (_ && _); [|apply kin_refl]. cbv zeta. cbn [fst]. eapply (kin_same s (transmit now _ s)); [reflexivity|].
  apply kin_schedule; [reflexivity|apply kin_refl].
Qed.
Lemma kin_do_inquiry : forall now s, kin s (fst (do_inquiry now s)).
Proof.
  intros now s. unfold do_inquiry. destruct (inquiry s) as [p|]; [|apply kin_refl]. destruct (_ <=? _); [now apply (kin_same s s); [|apply kin_refl]|].
  destruct (_ <=? _); [|apply kin_refl]. cbv zeta. cbn [fst]. eapply (kin_same s (transmit now _ s)); [reflexivity|].
  apply kin_schedule; [reflexivity|apply kin_refl].
Qed.

(** After a tick everything that was scheduled before it and was due is done: what is left
    is later, or was scheduled by the tick itself *)
Theorem tick_complete : forall last now s s' out, core s -> last <= now -> watched last s -> punctual last s -> tick order now s = Ok (s', out) ->
  watched now s' /\ punctual now s' /\
  (forall t, In t (queue s') -> quiet_job (what_to_do t) = true) /\
  (forall t, In t (queue s') -> now <= due t).
Proof.
  intros last now s s' out C L W P H. unfold tick in H. unbind H. injection H as <- <-.
  assert (R : running now (next_id s) s).
  { constructor; [|lia| |].
    - intros t I LE. pose proof (gq_fresh _ (core_queue s C) t I). lia.
    - intros h c E'. destruct (W h c E') as (B & X). split; auto. lia.
    - intros t I Q. specialize (P t I Q). lia. }
  destruct (run_complete now (next_id s) _ _ _ _ C R (filter_shorter _ _ _) E) as (C1 & R1 & N1).
  assert (A1 : ext now b b0) by (pose proof (ext_do_paging now b) as X; now rewrite E0 in X).
  assert (A2 : ext now b0 b1) by (pose proof (ext_do_inquiry now b0) as X; now rewrite E1 in X).
  assert (K1 : kin b b0) by (pose proof (kin_do_paging now b) as X; now rewrite E0 in X).
  assert (K2 : kin b0 b1) by (pose proof (kin_do_inquiry now b0) as X; now rewrite E1 in X).
  pose proof (ext_trans _ _ _ _ A1 A2) as A. pose proof (kin_trans _ _ _ K1 K2) as K.
  assert (LATE : forall t, In t (queue b) -> now <= due t).
  { intros t I. specialize (N1 t I). unfold eligible in N1. destruct (N.leb_spec (due t) now) as [D|D]; [|lia]. cbn [andb] in N1. apply N.ltb_ge in N1.
    now apply (run_fresh _ _ _ R1 t). }
  split; [eapply watched_ext; [reflexivity|apply (run_watched _ _ _ R1)|exact A]|].
  split; [eapply punctual_ext; [reflexivity|apply (run_punctual _ _ _ R1)|exact A]|]. split.
  - intros t I. destruct (K t I) as [J|J]; auto. specialize (N1 t J). unfold eligible in N1.
    destruct (what_to_do t) eqn:WT; try reflexivity;
      (assert (D : due t <= now) by (apply (run_punctual _ _ _ R1 t J); now rewrite WT); apply N.leb_le in D; rewrite D in N1; cbn [andb] in N1;
       apply N.ltb_ge in N1; destruct (run_fresh _ _ _ R1 t J N1) as (_ & Q); rewrite WT in Q; exact Q).
  - intros t I. destruct (ext_new _ _ _ A t I) as [J|(_ & J & _)]; auto.
Qed.

End WithOrder.
End Heard.

Section WithOrder.
Variable order : table sco_link -> table sco_link.
Variable cfg : config.
Hypothesis any_order : forall t, Permutation (order t) t.

(** * Histories whose clock does not go back *)

Theorem timed_history : forall h s, history order cfg h s -> timely h -> watched (latest h) s /\ punctual (latest h) s.
Proof.
  intros h s H. induction H as [a|h s now o s' st out H IH E]; intros T.
  - split; [intros h c L; discriminate L|intros t []].
  - destruct T as (T1 & T2). destruct (IH T2) as (W & P). pose proof (core_history order cfg any_order _ _ H) as C.
    assert (L : latest h <= now). { destruct h as [|e h']; cbn [latest]; [lia|]. apply (T1 e). now left. }
    cbn [latest at_time]. assert (TK : o = Tick \/ o <> Tick) by (destruct o; auto; right; discriminate). destruct TK as [->|NT].
    + cbn [step] in E. unbind E. injection E as <- <- <-. destruct (tick_complete (fun _ => True) true order _ _ _ _ _ C L W P E0) as (A & B & _). now split.
    + pose proof (ext_step (fun _ => True) true order cfg _ _ _ _ _ _ C NT (fun _ _ _ _ _ => eq_refl) (fun _ _ _ => Logic.I) (fun _ _ _ _ => Logic.I) E) as A. split; [eapply watched_ext; eassumption|eapply punctual_ext; eassumption].
Qed.

(** What a tick leaves, in every history *)
Theorem tick_leaves : forall h s now st out, history order cfg (Entry now Tick st out :: h) s -> timely (Entry now Tick st out :: h) ->
  (forall t, In t (queue s) -> quiet_job (what_to_do t) = true /\ now <= due t) /\
  (forall k c, lookup (acls s) k = Some c -> now <= last_heard c + kTimeout).
Proof.
  intros h s now st out H T. inversion H as [|h0 s0 n o s' st' out' H0 E]; subst. destruct T as (T1 & T2).
  destruct (timed_history _ _ H0 T2) as (W & P). pose proof (core_history order cfg any_order _ _ H0) as C.
  assert (L : latest h <= now). { destruct h as [|e h']; cbn [latest]; [lia|]. apply (T1 e). now left. }
  cbn [step] in E. unbind E. injection E as <- <- <-. destruct (tick_complete (fun _ => True) true order _ _ _ _ _ C L W P E0) as (A & _ & B1 & B2).
  split; [intros t I; split; auto|]. intros k c LK. destruct (A k c LK) as (_ & t & I & _ & D). specialize (B2 t I). lia.
Qed.
End WithOrder.
