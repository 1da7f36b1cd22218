(** Invariants of the BR/EDR controller. *)
From Coq Require Import Permutation.
From Verif Require Import Prelude Table Sco Bredr BredrBase.
From Verif Require Handles HandlesProofs.
Import Handles(get_unused_handle, kAclRangeStart, kAclRangeEnd, kScoRangeStart, kScoRangeEnd).
Open Scope N_scope.

Definition acl_table (s : bredr) : Prop := HandlesProofs.tinv 0 255 (acls s) (last_acl s).
Definition sco_table (s : bredr) : Prop := HandlesProofs.tinv 256 511 (scos s) (last_sco s).

(** The task of the stream of a synchronous connection is a stream, and only the open
    connections have one *)
Definition streams (s : bredr) : Prop :=
  forall h c i, In (h, c) (scos s) -> sco_stream c = Some i ->
    (i < next_id s /\ is_pending c = false) /\ forall t, In t (queue s) -> ident t = i -> exists h', what_to_do t = Stream h'.

Record core (s : bredr) : Prop := Core {
  core_acl : acl_table s;
  core_sco : sco_table s;
  core_queue : good_queue s;
  core_streams : streams s }.

Ltac corify := constructor; auto; try (eapply good_same; [..|eassumption]; reflexivity).

Lemma core_new : forall a, core (new_bredr a).
Proof.
  intros a. constructor.
  - constructor; cbn; [constructor|intros h []|unfold HandlesProofs.in_range, kAclRangeStart; lia].
  - constructor; cbn; [constructor|intros h []|unfold HandlesProofs.in_range, kScoRangeStart; lia].
  - constructor; cbn; [exact I|intros t []|constructor].
  - intros h c i [].
Qed.

Lemma core_same : forall s s', acls s' = acls s -> last_acl s' = last_acl s -> scos s' = scos s -> last_sco s' = last_sco s ->
  queue s' = queue s -> next_id s' = next_id s -> core s -> core s'.
Proof.
  intros s s' E1 E2 E3 E4 E5 E6 [A B C D]. constructor.
  - unfold acl_table. now rewrite E1, E2.
  - unfold sco_table. now rewrite E3, E4.
  - eapply good_same; eauto.
  - unfold streams. rewrite E3, E5, E6. exact D.
Qed.

Lemma core_schedule : forall t j s, core s -> core (schedule t j s).
Proof.
  intros t j s [A B C D]. constructor; auto.
  - now apply good_schedule.
  - intros h c i I E. specialize (D h c i I E). destruct D as ((L & P) & D). split; fields; [split; [lia|exact P]|].
    intros u J F. apply in_insert in J. destruct J as [->|J]; [cbn in F; lia|]. now apply D.
Qed.
Lemma core_cancel : forall i s, core s -> core (cancel i s).
Proof.
  intros i s [A B C D]. constructor; auto.
  - now apply good_cancel.
  - intros h c k I E. specialize (D h c k I E). destruct D as (L & D). split; fields; [exact L|].
    intros u J. apply in_remove_task in J. now apply D.
Qed.

Lemma core_acls : forall t s, core s -> HandlesProofs.tinv 0 255 t (last_acl s) -> core (with_acls t s).
Proof. intros t s [A B C D] T. corify. Qed.

Lemma tinv_put : forall (C : Type) lo hi (t : table C) l h c, HandlesProofs.tinv lo hi t l -> In h (keys t) -> HandlesProofs.tinv lo hi (put t h c) l.
Proof.
  intros C lo hi t l h c [A B D] I. constructor; auto.
  - change (Handles.keys (put t h c)) with (keys (put t h c)). now rewrite keys_put_in.
  - intros k. change (Handles.keys (put t h c)) with (keys (put t h c)). rewrite keys_put_in; auto.
Qed.
Lemma tinv_erase : forall (C : Type) lo hi (t : table C) l h, HandlesProofs.tinv lo hi t l -> HandlesProofs.tinv lo hi (erase t h) l.
Proof. intros. now apply HandlesProofs.tinv_erase. Qed.
Lemma tinv_alloc : forall (C : Type) lo hi (t : table C) l h l' c, hi = lo + 255 -> HandlesProofs.tinv lo hi t l ->
  get_unused_handle t lo hi l = Some (h, l') -> HandlesProofs.tinv lo hi (put t h c) l' /\ ~ In h (keys t) /\ lo <= h <= hi.
Proof.
  intros C lo hi t l h l' c W T E. destruct (HandlesProofs.alloc_some lo hi W t l h l' T E) as (R & N & R').
  destruct T as [A B D]. split; [|split; [exact N|apply R]]. constructor; auto.
  - change (NoDup (keys (put t h c))). now apply nodup_put.
  - intros k I. change (In k (keys (put t h c))) in I. apply in_keys_put in I. destruct I as [->|I]; auto.
Qed.

(** Changing the synchronous connection of handle [h] keeps the invariants if its stream is
    the same, or absent *)
Lemma core_put_sco : forall h c c' s, core s -> lookup (scos s) h = Some c -> (sco_stream c' = sco_stream c \/ sco_stream c' = None) ->
  is_pending c' = false -> core (with_scos (put (scos s) h c') s).
Proof.
  intros h c c' s [A B C D] L E P. corify.
  - unfold sco_table. fields. apply tinv_put; auto. eapply lookup_in, L.
  - intros k d i I F. fields. apply in_put in I. destruct I as [I|I].
    + injection I as -> ->. destruct E as [E|E]; rewrite E in F; [|discriminate].
      destruct (D h c i (lookup_pair _ _ _ L) F) as ((U & _) & V). now split.
    + eapply D; eauto.
Qed.
Lemma core_erase_sco : forall h s, core s -> core (with_scos (erase (scos s) h) s).
Proof.
  intros h s [A B C D]. corify.
  - unfold sco_table. fields. now apply tinv_erase.
  - intros k d i I F. fields. apply in_erase in I. eapply D; [apply I|exact F].
Qed.

Lemma core_tell_disconnection : forall now h r s, core s -> core (tell_disconnection now h r s).
Proof. intros. unfold tell_disconnection, tell. destruct (unmasked s 5); auto. now apply core_schedule. Qed.
Lemma core_stop_stream : forall c s, core s -> core (stop_stream c s).
Proof. intros. unfold stop_stream. destruct (sco_stream c); auto. now apply core_cancel. Qed.
Lemma scos_stop_stream : forall c s, scos (stop_stream c s) = scos s.
Proof. intros. unfold stop_stream. now destruct (sco_stream c). Qed.
Lemma core_close_sco : forall h s, core s -> core (close_sco h s).
Proof. intros h s C. unfold close_sco. destruct (lookup (scos s) h); auto. now apply core_erase_sco, core_stop_stream. Qed.

Section WithOrder.
Variable order : table sco_link -> table sco_link.
Variable cfg : config.
Hypothesis any_order : forall t, Permutation (order t) t.

Lemma core_close_acl : forall h s s', core s -> close_acl order h s = Ok s' -> core s'.
Proof.
  intros h s s' C. unfold close_acl. destruct (lookup (acls s) h) as [c|]; [|now intros [= <-]].
  destruct (sco_of order (acl_peer c) s); [discriminate|]. intros [= <-]. apply core_acls; auto. apply tinv_erase, C.
Qed.
Lemma core_remove_link : forall a s s', core s -> remove_link a s = Ok s' -> core s'.
Proof.
  intros a s s' C. unfold remove_link. destruct (list_eqb a empty_address).
  - destruct (_ <=? _); [discriminate|]. now intros [= <-].
  - destruct (existsb _ _); [|discriminate]. intros [= <-]. now apply (core_same s).
Qed.
Lemma core_add_link : forall a s s', core s -> add_link a s = Ok s' -> core s'.
Proof.
  intros a s s' C. unfold add_link. destruct (_ <=? _); [discriminate|]. destruct (list_eqb a empty_address); intros [= <-]; auto.
  now apply (core_same s).
Qed.
Lemma core_create_acl : forall now a r p s h s', core s -> create_acl now a r p s = Ok (h, s') -> core s'.
Proof.
  intros now a r p s h s' [A B C D]. unfold create_acl.
  destruct (get_unused_handle _ _ _ _) as [[h' l]|] eqn:E; [|discriminate]. intros [= <- <-].
  destruct (tinv_alloc _ 0 255 _ _ _ _ (AclLink a r p now) eq_refl A E) as (T & _). corify.
Qed.
Lemma core_create_sco : forall a p st sp leg s h s', core s -> create_sco a p st sp leg s = Ok (h, s') -> core s'.
Proof.
  intros a p st sp leg s h s' [A B C D]. unfold create_sco.
  destruct (get_unused_handle _ _ _ _) as [[h' l]|] eqn:E; [|discriminate]. intros [= <- <-].
  destruct (tinv_alloc _ 256 511 _ _ _ _ (ScoLink a p no_link st sp leg None) eq_refl B E) as (T & N & _). corify.
  intros k d i I F. fields. rewrite put_absent in I by exact N. apply in_app_iff in I. destruct I as [I|[I|[]]]; [eapply D; eauto|].
  injection I as <- <-. discriminate.
Qed.

Lemma core_open_stream : forall now h s s', core s -> (forall c, lookup (scos s) h = Some c -> is_pending c = false) -> open_stream order now h s = Ok s' -> core s'.
Proof.
  intros now h s s' C P. unfold open_stream. destruct (lookup (scos s) h) as [c|] eqn:L; [|now intros [= <-]]. specialize (P c eq_refl).
  destruct (sco_stream c) eqn:E; [discriminate|]. destruct (sco_spoofed c); [|now intros [= <-]].
  destruct (sco_of order (sco_peer c) s) as [[h' c']|]; [|discriminate]. unfold start_stream. intros [= <-].
  pose proof (core_schedule now (Stream h') s C) as [A B Q D]. corify.
  - unfold sco_table. fields. apply tinv_put; auto. eapply lookup_in, L.
  - intros k d i I F. fields. apply in_put in I. destruct I as [I|I].
    + injection I as -> ->. fields. injection F as <-. split; [split; [lia|exact P]|].
      intros t J G. apply in_insert in J. destruct J as [->|J]; [eexists; reflexivity|].
      apply (gq_fresh s (core_queue s C)) in J. lia.
    + eapply D; eauto.
Qed.

Lemma core_accept_negotiated : forall now h c p s l s', core s -> lookup (scos s) h = Some c ->
  accept_negotiated order now h c p s = Ok (l, s') -> core s'.
Proof.
  intros now h c p s l s' C L. unfold accept_negotiated. destruct (negotiate _ _ _) as [k|].
  - destruct (open_stream _ _ _ _) as [s1| | |] eqn:E; try discriminate. cbn. intros [= <- <-].
    eapply core_open_stream; [| |exact E]; [eapply core_put_sco; eauto|]. intros d. fields. rewrite lookup_put, N.eqb_refl. now intros [= <-].
  - intros [= <- <-]. eapply core_put_sco; eauto.
Qed.
Lemma core_accept_given : forall now h c l s s', core s -> lookup (scos s) h = Some c ->
  accept_given order now h c l s = Ok s' -> core s'.
Proof.
  intros now h c l s s' C L. unfold accept_given. intros E. eapply core_open_stream; [| |exact E]; [eapply core_put_sco; eauto|]. intros d. fields. rewrite lookup_put, N.eqb_refl. now intros [= <-].
Qed.
Lemma core_cancel_sco : forall a s, core s -> core (cancel_sco order a s).
Proof. intros a s C. unfold cancel_sco. destruct (sco_of order a s) as [[h c]|]; auto. now apply core_erase_sco. Qed.

Lemma sco_lookup : forall a s h c, core s -> sco_of order a s = Some (h, c) -> lookup (scos s) h = Some c /\ sco_peer c = a.
Proof.
  intros a s h c C E. apply (sco_of_some order any_order) in E. destruct E as (I & E). split; auto.
  apply in_lookup_nodup; auto. apply (HandlesProofs.tinv_nodup _ _ _ _ (core_sco s C)).
Qed.
Lemma acl_lookup : forall a s h c, core s -> acl_of a s = Some (h, c) -> lookup (acls s) h = Some c /\ acl_peer c = a.
Proof.
  intros a s h c C E. apply acl_of_some in E. destruct E as (I & E). split; auto.
  apply in_lookup_nodup; auto. apply (HandlesProofs.tinv_nodup _ _ _ _ (core_acl s C)).
Qed.

Ltac easy_core :=
  cbn [fst snd]; repeat match goal with
  | |- core (schedule _ _ _) => apply core_schedule
  | |- core (transmit _ _ _) => apply core_schedule
  | |- core (tell _ _ _) => apply core_schedule
  | |- core (tell_disconnection _ _ _ _) => apply core_tell_disconnection
  | |- core (close_sco _ _) => apply core_close_sco
  | |- core (cancel_sco _ _ _) => apply core_cancel_sco
  | |- core (sco_answer _ _ _ _ _) => apply core_schedule
  | |- core (if ?b then _ else _) => destruct b
  | |- core (with_page _ ?s) => apply (core_same s); try reflexivity
  | |- core (with_page_scan _ ?s) => apply (core_same s); try reflexivity
  | |- core (with_inquiry _ ?s) => apply (core_same s); try reflexivity
  end; auto.

(** Split the sequence of calls that produced an [Ok] *)
Ltac unbind H :=
  repeat match type of H with
  | bind ?r _ = Ok _ =>
      let E := fresh "E" in destruct r as [?x| | |] eqn:E; cbn [bind] in H; try discriminate H;
      repeat match goal with x : (_ * _)%type |- _ => destruct x end
  | (let '(_, _) := ?p in _) = Ok _ => let E := fresh "E" in destruct p eqn:E
  end.

Lemma core_disconnect : forall now h r r' s st s', core s -> disconnect order now h r r' s = Ok (st, s') -> core s'.
Proof.
  intros now h r r' s st s' C. unfold disconnect. destruct (lookup (scos s) h) as [c|] eqn:L.
  - intros [= <- <-]. easy_core.
  - destruct (lookup (acls s) h) as [c|] eqn:L'; [|now intros [= <- <-]]. intros H. unbind H.
    injection H as <- <-. eapply core_remove_link; [|eassumption]. apply core_tell_disconnection.
    eapply core_close_acl; [|eassumption]. apply core_schedule. destruct (sco_of order (acl_peer c) s) as [[sh sc]|]; auto. easy_core.
Qed.
Lemma core_check_link : forall now h s s', core s -> check_link order now h s = Ok s' -> core s'.
Proof.
  intros now h s s' C. unfold check_link. destruct (lookup (acls s) h) as [c|]; [|now intros [= <-]].
  destruct (_ <? _); [|destruct (_ <? _)].
  - intros H. unbind H. injection H as <-. eapply core_disconnect; eassumption.
  - intros [= <-]. easy_core.
  - intros [= <-]. easy_core.
Qed.

Lemma core_accept_connection : forall now a try s st s', core s -> accept_connection order now a try s = Ok (st, s') -> core s'.
Proof.
  intros now a try s st s' C. unfold accept_connection. destruct (paged_by a s).
  - destruct (has_acl_with a s); [now intros [= <- <-]|]. intros H. unbind H. injection H as <- <-.
    easy_core; (eapply core_add_link; [|eassumption]); easy_core; (eapply core_check_link; [|eassumption]);
      (eapply core_create_acl; [|eassumption]); auto.
  - destruct (sco_of order a s) as [[h c]|] eqn:F; [|now intros [= <- <-]]. destruct (is_pending c); [|now intros [= <- <-]].
    destruct (sco_lookup _ _ _ _ C F) as (L & _).
    intros H. unbind H. injection H as <- <-. apply core_accept_negotiated in E; auto.
    destruct o; easy_core.
Qed.
Lemma core_setup_sync : forall now h p sp leg s st s', core s -> setup_sync order now h p sp leg s = Ok (st, s') -> core s'.
Proof.
  intros now h p sp leg s st s' C. unfold setup_sync. destruct (lookup (acls s) h) as [c|]; [|now intros [= <- <-]].
  destruct (has_pending_sco order (acl_peer c) s); [now intros [= <- <-]|]. intros H. unbind H. injection H as <- <-.
  easy_core. eapply core_create_sco; eassumption.
Qed.
Lemma core_accept_sync : forall now a p s st s', core s -> accept_sync order now a p s = Ok (st, s') -> core s'.
Proof.
  intros now a p s st s' C. unfold accept_sync. destruct (sco_of order a s) as [[h c]|] eqn:F; [|now intros [= <- <-]].
  destruct (is_pending c); [|now intros [= <- <-]]. destruct (sco_lookup _ _ _ _ C F) as (L & _).
  intros H. unbind H. injection H as <- <-. apply core_accept_negotiated in E; auto. destruct o; easy_core.
Qed.

Lemma core_fold : forall (T : Type) (f : bredr -> T -> bredr) (l : list T), (forall s x, core s -> core (f s x)) -> forall s, core s -> core (fold_left f l s).
Proof. intros T f l H. induction l as [|x l IH]; cbn; auto. Qed.
Lemma core_reset : forall now s, core s -> core (reset order now s).
Proof.
  intros now s C. unfold reset.
  assert (C2 : core (fold_left (fun s e => stop_stream (snd e) s) (scos (disconnect_all order now REMOTE_USER_TERMINATED s)) (disconnect_all order now REMOTE_USER_TERMINATED s))).
  { apply core_fold; [intros; now apply core_stop_stream|]. unfold disconnect_all.
    apply core_fold; [intros; now apply core_schedule|]. apply core_fold; [intros; now apply core_schedule|]. exact C. }
  set (s2 := fold_left _ _ _) in *. clearbody s2.
  pose proof (core_new (address s2)) as [A B _ _]. corify.
  - eapply good_same; [| |apply (core_queue s2 C2)]; reflexivity.
  - intros h c i [].
Qed.

Lemma core_command : forall now s c st s' out, core s -> run_command order cfg now s c = Ok (st, s', out) -> core s'.
Proof.
  intros now s c st s' out C. destruct c; cbn [run_command]; unfold quiet; intros H;
    try (injection H as <- <- <-; cbn [fst snd]);
    try (unbind H; injection H as <- <- <-; cbn [fst snd]).
  - unfold start_inquiry. destruct (_ || _); auto. destruct (inquiry s); auto. easy_core.
  - unfold cancel_inquiry. destruct (inquiry s); auto. easy_core.
  - unfold create_connection. destruct (page s); auto. destruct (has_acl_with a s); auto. destruct (paged_by a s); auto. easy_core.
  - unfold cancel_connection. destruct (paging a s); auto. cbn [snd]. easy_core.
  - eapply core_disconnect; eassumption.
  - eapply core_accept_connection; eassumption.
  - unfold reject_connection. destruct (paged_by a s); auto. easy_core.
  - unfold change_packet_type. destruct (has (acls s) h); auto. easy_core.
  - unfold remote_name. cbn [snd]. easy_core.
  - unfold ask_peer. destruct (lookup (acls s) h); auto. easy_core.
  - unfold ask_peer. destruct (lookup (acls s) h); auto. easy_core.
  - unfold ask_peer. destruct (lookup (acls s) h); auto. easy_core.
  - unfold ask_peer. destruct (lookup (acls s) h); auto. easy_core.
  - eapply core_setup_sync; eassumption.
  - eapply core_setup_sync; eassumption.
  - eapply core_accept_sync; eassumption.
  - unfold reject_sync. destruct (has_pending_sco order a s); auto. cbn [snd]. easy_core.
  - destruct (enhanced_ok p e); [|now injection H as <- <- <-]. unbind H. injection H as <- <- <-. eapply core_setup_sync; eassumption.
  - destruct (enhanced_ok p e); [|now injection H as <- <- <-]. unbind H. injection H as <- <- <-. eapply core_accept_sync; eassumption.
  - unfold qos_setup. destruct (negb _); auto. destruct (2 <? service); auto. cbn [snd]. easy_core.
  - destruct (lookup (acls s) h); now injection H as <- <- <-.
  - unfold switch_role. destruct (acl_of a s) as [[h c]|]; auto. destruct (sco_of order a s); auto. cbn [snd]. easy_core.
  - unfold write_link_policy. destruct (lookup (acls s) h) as [c|] eqn:L; auto. destruct (7 <? n); auto.
    apply core_acls; auto. apply tinv_put; [apply C|eapply lookup_in, L].
  - destruct (7 <? n); injection H as <- <- <-; auto. now apply (core_same s).
  - now apply core_reset.
  - now apply (core_same s).
  - now apply (core_same s).
  - now apply (core_same s).
  - now apply (core_same s).
  - now apply (core_same s).
  - now apply (core_same s).
  - now apply (core_same s).
  - now apply (core_same s).
  - now apply (core_same s).
  - now apply (core_same s).
Qed.

Lemma core_put_acl : forall h c c' s, core s -> lookup (acls s) h = Some c -> core (with_acls (put (acls s) h c') s).
Proof. intros h c c' s C L. apply core_acls; auto. apply tinv_put; [apply C|eapply lookup_in, L]. Qed.

Lemma core_send_sco : forall now h d s, core s -> core (send_sco now h d s).
Proof. intros. unfold send_sco. destruct (lookup (scos s) h); auto. easy_core. Qed.
Lemma core_heard : forall now a s, core s -> core (heard_from now a s).
Proof.
  intros now a s C. unfold heard_from. destruct (acl_of a s) as [[h c]|] eqn:F; auto. eapply core_put_acl; eauto.
  eapply acl_lookup; eauto.
Qed.

Lemma core_dispatch : forall now rssi p s s' out, core s -> dispatch order cfg now rssi p s = Ok (s', out) -> core s'.
Proof.
  intros now rssi p s s' out C. unfold dispatch. destruct (content p); unfold silent, answering; intros H;
    try (injection H as <- <-); auto; easy_core.
  - unbind H. injection H as <- <-. unfold receive_bye in E. destruct (acl_of (source p) s) as [[h c]|]; [|now injection E as <-].
    unbind E. injection E as <-. apply core_tell_disconnection. eapply core_remove_link; [|eassumption]. eapply core_close_acl; eassumption.
  - unfold receive_inquiry. easy_core.
  - injection H as H. unfold receive_page in H.
    destruct (negb (page_scan_enable s)); [now injection H as <- <-|]. destruct (negb _); [injection H as <- <-; easy_core|].
    destruct (has_acl_with _ s); [now injection H as <- <-|]. destruct (page_scan s); injection H as <- <-; auto. easy_core.
  - unfold receive_page_response in H. destruct (paging (source p) s); [|now injection H as <- <-]. unbind H. injection H as <- <-.
    eapply core_add_link; [|eassumption]. match goal with |- core (with_page None ?x) => apply (core_same x); auto end. eapply core_check_link; [|eassumption]. eapply core_create_acl; eassumption.
  - injection H as H. unfold receive_page_reject in H. destruct (paging (source p) s); injection H as <- <-; auto. easy_core.
  - unbind H. injection H as <- <-. unfold receive_extended_request in E. destruct (get_features cfg s page); [|discriminate].
    injection E as <-. easy_core.
  - unfold receive_sco_request in H. destruct (has_pending_sco order (source p) s); [injection H as <- <-; easy_core|].
    unbind H. injection H as <- <-. eapply core_create_sco; eassumption.
  - unfold receive_sco_response in H. destruct (sco_of order (source p) s) as [[h c]|] eqn:F; [|now injection H as <- <-].
    destruct (sco_lookup _ _ _ _ C F) as (L & _). destruct (st =? SUCCESS).
    + unbind H. injection H as <- <-. eapply core_accept_given; eassumption.
    + no_stream H. injection H as <- <-. easy_core.
  - unfold receive_sco_bye. destruct (sco_of order (source p) s) as [[h c]|]; auto. easy_core.
  - unfold receive_switch_request. destruct (acl_of (source p) s) as [[h c]|] eqn:F; auto.
    destruct (acl_lookup _ _ _ _ C F) as (L & _). destruct (N.testbit _ 0); [|easy_core].
    set (t := transmit _ _ _). assert (Ct : core t) by (unfold t; easy_core).
    assert (Cp : core (with_acls (put (acls t) h (with_acl_role (other (acl_role c)) c)) t)) by (eapply core_put_acl; eauto).
    easy_core.
  - unfold receive_switch_response. destruct (acl_of (source p) s) as [[h c]|] eqn:F; auto.
    destruct (acl_lookup _ _ _ _ C F) as (L & _). cbv zeta.
    assert (Cp : core (with_acls (put (acls s) h (with_acl_role (if st =? SUCCESS then other (acl_role c) else acl_role c) c)) s))
      by (eapply core_put_acl; eauto).
    match goal with |- core (if ?b then _ else _) => destruct b end; auto. now apply core_schedule.
Qed.

Lemma core_receive : forall now rssi p s s' out, core s -> receive order cfg now rssi p s = Ok (s', out) -> core s'.
Proof.
  intros now rssi p s s' out C. unfold receive. destruct (for_me p s); [|now intros [= <- <-]].
  apply core_dispatch. now apply core_heard.
Qed.

(** Taking the first task out of the queue *)
Lemma core_pop : forall t q s, core s -> queue s = t :: q -> core (with_queue q s).
Proof.
  intros t q s [A B [S F D] T] E. rewrite E in *. corify.
  - constructor; fields; [apply S|intros u I; apply F; now right|]. now inversion D.
  - intros h c i I G. specialize (T h c i I G). rewrite E in T. destruct T as (L & T). split; auto.
    intros u J. apply T. now right.
Qed.

Lemma core_run_job : forall now t q s s' out, core s -> queue s = t :: q ->
  run_job order now t (with_queue q s) = Ok (s', out) -> core s'.
Proof.
  intros now t q s s' out C0 EQ. pose proof (core_pop t q s C0 EQ) as C. unfold run_job. destruct (what_to_do t) eqn:W; intros H; try (injection H as <- <-; auto).
  - easy_core.
  - unfold answering in H. unbind H. injection H as <- <-. eapply core_check_link; eassumption.
  - set (s1 := send_sco now h [0; 0; 0; 0; 0] (with_queue q s)).
    assert (C1 : core s1) by (now apply core_send_sco).
    assert (F1 : forall u, In u (queue s1) -> ident u <> ident t).
    { assert (F0 : forall u, In u q -> ident u <> ident t).
      { pose proof (gq_nodup s (core_queue s C0)) as ND. rewrite EQ in ND. inversion ND; subst.
        intros u I E. apply H1. rewrite <- E. now apply in_map. }
      assert (F2 : ident t < next_id s) by (apply (gq_fresh s (core_queue s C0)); rewrite EQ; now left).
      intros u I. unfold s1, send_sco in I. fields. destruct (lookup (scos s) h); fields; [|auto].
      apply in_insert in I. destruct I as [->|I]; [cbn; lia|auto]. }
    assert (F3 : ident t < next_id s1).
    { assert (F2 : ident t < next_id s) by (apply (gq_fresh s (core_queue s C0)); rewrite EQ; now left).
      unfold s1, send_sco. fields. destruct (lookup (scos s) h); fields; lia. }
    assert (SC : scos s1 = scos s) by (unfold s1, send_sco; fields; now destruct (lookup (scos s) h)).
    clearbody s1. destruct C1 as [A B [S F D] T]. corify.
    + constructor; fields.
      * apply sorted_insert; auto.
      * intros u I. apply in_insert in I. destruct I as [->|I]; auto.
      * rewrite (Permutation_map ident (insert_permutation _ _)). cbn. constructor; auto.
        intros I. apply in_map_iff in I. destruct I as (u & E & I). eapply F1; eauto.
    + intros k c i I G. specialize (T k c i I G). destruct T as (L & T). split; auto. fields.
      intros u J E. apply in_insert in J. destruct J as [->|J]; [eexists; reflexivity|]. now apply T.
Qed.

Lemma core_run_tasks : forall now limit fuel s s' out, core s -> run_tasks order now limit fuel s = Ok (s', out) -> core s'.
Proof.
  intros now limit. induction fuel as [|fuel IH]; cbn [run_tasks]; intros s s' out C H; [now injection H as <- <-|].
  destruct (queue s) as [|t q] eqn:EQ; [now injection H as <- <-|].
  destruct ((due t <=? now) && (ident t <? limit)); [|now injection H as <- <-]. unbind H. injection H as <- <-.
  eapply IH; [|eassumption]. eapply core_run_job; eassumption.
Qed.

Lemma core_do_paging : forall now s, core s -> core (fst (do_paging now s)).
Proof.
  intros now s C. unfold do_paging. destruct (page s); auto. destruct (_ <=? _); [cbn [fst]; easy_core|].
  destruct (_ && _); cbn [fst]; easy_core.
Qed.
Lemma core_do_inquiry : forall now s, core s -> core (fst (do_inquiry now s)).
Proof.
  intros now s C. unfold do_inquiry. destruct (inquiry s); auto. destruct (_ <=? _); [cbn [fst]; easy_core|].
  destruct (_ <=? _); cbn [fst]; easy_core.
Qed.
Lemma core_tick : forall now s s' out, core s -> tick order now s = Ok (s', out) -> core s'.
Proof.
  intros now s s' out C H. unfold tick in H. unbind H. apply core_run_tasks in E; auto.
  injection H as <- <-. apply (core_do_paging now) in E. rewrite E0 in E. cbn [fst] in E.
  apply (core_do_inquiry now) in E. now rewrite E1 in E.
Qed.

Theorem core_step : forall now s o s' st out, core s -> step order cfg now s o = Ok (s', st, out) -> core s'.
Proof.
  intros now s o s' st out C H. destruct o; cbn [step] in H; unbind H.
  - injection H as <- <- <-. eapply core_command; eassumption.
  - injection H as <- <- <-. unfold handle_acl in E. destruct (negb _); [discriminate|]. injection E as <-.
    apply core_schedule. destruct (lookup (acls s) h); auto. now apply core_schedule.
  - injection H as <- <- <-. now apply core_send_sco.
  - injection H as <- <- <-. eapply core_receive; eassumption.
  - injection H as <- <- <-. eapply core_tick; eassumption.
Qed.
Theorem core_history : forall h s, history order cfg h s -> core s.
Proof. intros h s H. induction H; [apply core_new|eapply core_step; eassumption]. Qed.
End WithOrder.

Ltac unbind H :=
  repeat match type of H with
  | bind ?r _ = Ok _ =>
      let E := fresh "E" in destruct r as [?x| | |] eqn:E; cbn [bind] in H; try discriminate H;
      repeat match goal with x : (_ * _)%type |- _ => destruct x end
  | (let '(_, _) := ?p in _) = Ok _ => let E := fresh "E" in destruct p eqn:E
  end.
