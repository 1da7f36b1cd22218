(** The BR/EDR controller: exactly what each operation schedules, in which order, and what
    a tick sends. *)
From Coq Require Import Permutation.
From Verif Require Import Prelude Table Sco Bredr BredrBase BredrInv BredrConn BredrSpec BredrRefine BredrTime BredrFrame BredrData.
From Verif Require Handles.
Import Handles(get_unused_handle, kAclRangeStart, kAclRangeEnd).
Open Scope N_scope.

(** The jobs of the next tick, in their order *)
Definition pending (s : bredr) : list job := filter prompt (map what_to_do (queue s)).

(** [s] is [s0] with these jobs added at the end *)
Record gains (now : N) (s0 s : bredr) (js : list job) : Prop := Gains {
  gains_queue : good_queue s;
  gains_punctual : punctual now s;
  gains_pending : pending s = pending s0 ++ js }.

Lemma filter_prompt_app : forall a b, filter prompt (a ++ b) = filter prompt a ++ filter prompt b.
Proof. intros. apply filter_app. Qed.
Lemma pending_insert_late : forall t q, prompt (what_to_do t) = false -> filter prompt (map what_to_do (insert t q)) = filter prompt (map what_to_do q).
Proof.
  intros t q P. induction q as [|u q IH]; cbn [insert map filter]; [now rewrite P|]. destruct (before t u); cbn [map filter]; [now rewrite P|]. now rewrite IH.
Qed.
Lemma pending_insert : forall t q, sorted q -> prompt (what_to_do t) = true -> (forall u, In u q -> prompt (what_to_do u) = true -> earlier u t) ->
  filter prompt (map what_to_do (insert t q)) = filter prompt (map what_to_do q) ++ [what_to_do t].
Proof.
  intros t q S P H. induction q as [|u q IH]; cbn [insert map filter]; [now rewrite P|]. destruct S as (A & S). destruct (before t u) eqn:B.
  - assert (Z : forall v, In v (u :: q) -> prompt (what_to_do v) = false).
    { intros v I. destruct (prompt (what_to_do v)) eqn:F; auto. exfalso. elim (earlier_irrefl t).
      assert (earlier t v) by (destruct I as [<-|I]; [exact B|eapply before_trans; [exact B|now apply A]]).
      eapply before_trans; [eassumption|]. apply H; auto. }
    assert (Y : forall l, (forall v, In v l -> prompt (what_to_do v) = false) -> filter prompt (map what_to_do l) = []).
    { induction l as [|v l IHl]; intros K; auto. cbn [map filter]. rewrite K by now left. apply IHl. intros w I. apply K. now right. }
    change (filter prompt (map what_to_do (t :: u :: q)) = filter prompt (map what_to_do (u :: q)) ++ [what_to_do t]).
    rewrite (Y (u :: q) Z). cbn [map filter]. rewrite P. cbn [app]. f_equal. exact (Y (u :: q) Z).
  - cbn [map filter]. rewrite IH; auto; [|intros v I; apply H; now right]. destruct (prompt (what_to_do u)); reflexivity.
Qed.
Lemma pending_remove : forall i q, (forall t, In t q -> ident t = i -> prompt (what_to_do t) = false) ->
  filter prompt (map what_to_do (remove_task i q)) = filter prompt (map what_to_do q).
Proof.
  intros i. induction q as [|t q IH]; intros H; auto. cbn [remove_task]. destruct (N.eqb_spec (ident t) i) as [E|E]; cbn [map filter].
  - now rewrite (H t (or_introl eq_refl) E).
  - rewrite IH; auto. intros u I. apply H. now right.
Qed.

Lemma gains_refl : forall now s, core s -> punctual now s -> gains now s s [].
Proof. intros now s C P. constructor; auto; [apply C|now rewrite app_nil_r]. Qed.
Lemma gains_is : forall now s0 s js js', gains now s0 s js -> js = js' -> gains now s0 s js'.
Proof. intros. now subst. Qed.
Lemma gains_schedule : forall now j s0 s js, prompt j = true -> gains now s0 s js -> gains now s0 (schedule now j s) (js ++ [j]).
Proof.
  intros now j s0 s js P [Q U E]. constructor.
  - now apply good_schedule.
  - intros t I PT. cbn [queue schedule with_queue with_next_id] in I. apply in_insert in I. destruct I as [->|I]; [cbn; lia|auto].
  - rewrite app_assoc, <- E. unfold pending, schedule. cbn [queue with_queue with_next_id]. apply (pending_insert (Task now (next_id s) j)); auto; [apply Q|].
    intros u I PU. unfold earlier. rewrite before_spec. cbn [due ident]. pose proof (gq_fresh _ Q u I). specialize (U u I PU). lia.
Qed.
Lemma gains_later : forall now t j s0 s js, prompt j = false -> gains now s0 s js -> gains now s0 (schedule t j s) js.
Proof.
  intros now t j s0 s js P [Q U E]. constructor.
  - now apply good_schedule.
  - intros u I PT. cbn [queue schedule with_queue with_next_id] in I. apply in_insert in I. destruct I as [->|I]; [cbn in PT; congruence|auto].
  - rewrite <- E. unfold pending, schedule. cbn [queue with_queue with_next_id]. now apply pending_insert_late.
Qed.
Lemma gains_same : forall now s0 s s' js, queue s' = queue s -> next_id s' = next_id s -> gains now s0 s js -> gains now s0 s' js.
Proof.
  intros now s0 s s' js E1 E2 [Q U E]. constructor.
  - now apply (good_same s).
  - intros t I. rewrite E1 in I. now apply U.
  - rewrite <- E. unfold pending. now rewrite E1.
Qed.
Lemma gains_stop_stream : forall now s0 s js h c, core s -> In (h, c) (scos s) -> gains now s0 s js -> gains now s0 (stop_stream c s) js.
Proof.
  intros now s0 s js h c C I G. unfold stop_stream. destruct (sco_stream c) as [i|] eqn:E; auto. destruct G as [Q U EQ]. constructor.
  - now apply good_cancel.
  - intros t J. cbn [cancel queue with_queue] in J. apply U. eapply in_remove_task, J.
  - rewrite <- EQ. unfold pending, cancel. cbn [queue with_queue]. apply pending_remove. intros t J F.
    destruct (core_streams s C h c i I E) as (_ & T). destruct (T t J F) as (h' & ->). reflexivity.
Qed.
Lemma gains_close_sco : forall now s0 s js h, core s -> gains now s0 s js -> gains now s0 (close_sco h s) js.
Proof.
  intros now s0 s js h C G. unfold close_sco. destruct (lookup (scos s) h) as [c|] eqn:L; auto. cbv zeta.
  apply (gains_same now s0 (stop_stream c s)); try reflexivity. eapply gains_stop_stream; eauto. apply lookup_pair, L.
Qed.

(** * The jobs of each operation *)
(** HCI Disconnection Complete *)
Definition ended (s : bredr) (h : N) (reason : status) : list job :=
  if unmasked s 0x05 then [Tell (DisconnectionComplete SUCCESS h reason)] else [].
Definition to (s : bredr) (a : addr) (b : body) : job := Transmit (Air (address s) a b).
Definition when_unmasked (s : bredr) (code : N) (e : event) : list job := if unmasked s code then [Tell e] else [].

Section WithOrder.
Variable order : table sco_link -> table sco_link.
Variable cfg : config.
Hypothesis any_order : forall t, Permutation (order t) t.

Definition jobs_disconnect (h host_reason reason : N) (s : bredr) : list job :=
  match lookup (scos s) h with
  | Some c => to s (sco_peer c) (ScoBye host_reason) :: ended s h reason
  | None =>
      match lookup (acls s) h with
      | Some c =>
          match sco_of order (acl_peer c) s with
          | Some (sh, _) => to s (acl_peer c) (ScoBye host_reason) :: ended s sh reason
          | None => []
          end ++ to s (acl_peer c) (Bye host_reason) :: ended s h reason
      | None => []
      end
  end.
(** The answer to the request for a synchronous connection *)
Definition agreed (c : sco_link) (p : params) : option link := negotiate (sco_now c) (sco_params c) p.
Definition jobs_accept (a : addr) (try : bool) (s : bredr) : list job :=
  if paged_by a s then
    if has_acl_with a s then []
    else
      match get_unused_handle (acls s) kAclRangeStart kAclRangeEnd (last_acl s) with
      | None => []
      | Some (h, _) =>
          (if try && negb (match page_scan s with Some p => scan_allow p | None => 0 end =? 0) then when_unmasked s 0x12 (RoleChange SUCCESS a CENTRAL) else []) ++
          when_unmasked s 0x03 (ConnectionComplete SUCCESS h a LINK_ACL) ++ [to s a (PageResponse try)]
      end
  else
    match sco_of order a s with
    | Some (h, c) =>
        if is_pending c then
          match agreed c (sco_params c) with
          | Some l => to s a (ScoResponse SUCCESS l) :: when_unmasked s 0x03 (ConnectionComplete SUCCESS h a LINK_SCO)
          | None => to s a (ScoResponse SCO_INTERVAL_REJECTED no_link) :: when_unmasked s 0x03 (ConnectionComplete SCO_INTERVAL_REJECTED 0 a LINK_SCO)
          end
        else []
    | None => []
    end.
Definition jobs_setup (h : N) (p : params) (s : bredr) : list job :=
  match lookup (acls s) h with
  | Some c => if has_pending_sco order (acl_peer c) s then [] else [to s (acl_peer c) (ScoRequest p (class s))]
  | None => []
  end.
Definition jobs_accept_sync (a : addr) (p : params) (s : bredr) : list job :=
  match sco_of order a s with
  | Some (h, c) =>
      if is_pending c then
        match agreed c p with
        | Some l => [to s a (ScoResponse SUCCESS l); Tell (sync_complete SUCCESS h a l)]
        | None => [to s a (ScoResponse STATUS_UNKNOWN no_link); Tell (sync_complete STATUS_UNKNOWN 0 a no_link)]
        end
      else []
  | None => []
  end.
Definition jobs_ask (h : N) (b : body) (s : bredr) : list job :=
  match lookup (acls s) h with Some c => [to s (acl_peer c) b] | None => [] end.

Definition jobs_of_command (c : command) (s : bredr) : list job :=
  match c with
  | CreateConnectionCancel a => if paging a s then when_unmasked s 0x03 (ConnectionComplete UNKNOWN_CONNECTION 0 a LINK_ACL) else []
  | Disconnect h reason => jobs_disconnect h reason LOCAL_HOST_TERMINATED s
  | AcceptConnection a try => jobs_accept a try s
  | RejectConnection a reason => if paged_by a s then [RejectPage a reason] else []
  | ChangePacketType h t => if has (acls s) h then [TellPacketType h t] else []
  | RemoteName a => [to s a LmpFeaturesRequest; to s a NameRequest]
  | ReadSupportedFeatures h => jobs_ask h FeaturesRequest s
  | ReadExtendedFeatures h n => jobs_ask h (ExtendedFeaturesRequest n) s
  | ReadVersion h => jobs_ask h VersionRequest s
  | ReadClockOffset h => jobs_ask h ClockRequest s
  | AddSco h t => jobs_setup h (legacy_params t) s
  | SetupSync h p => jobs_setup h p s
  | AcceptSync a p => jobs_accept_sync a p s
  | RejectSync a reason =>
      if has_pending_sco order a s then
        let r := (if reason =? SUCCESS then REMOTE_USER_TERMINATED else reason) mod 256 in
        [to s a (ScoResponse r no_link); Tell (SynchronousComplete r 0 a LINK_ESCO 0 0 0 0 3)]
      else []
  | EnhancedSetup h p e => if enhanced_ok p e then jobs_setup h (with_voice_of s p) s else []
  | EnhancedAccept a p e => if enhanced_ok p e then jobs_accept_sync a (with_voice_of s p) s else []
  | QosSetup h service rate bandwidth latency variation =>
      if has (acls s) h && negb (2 <? service)
      then when_unmasked s 0x0d (QosComplete SUCCESS h service (preferred rate 100000) (preferred bandwidth 200000)
                     (preferred latency 50000) (preferred variation 10000))
      else []
  | SwitchRole a r =>
      match acl_of a s, sco_of order a s with
      | Some (_, c), None =>
          if negb (role_eqb r (acl_role c)) then [to s a SwitchRequest] else when_unmasked s 0x12 (RoleChange ROLE_SWITCH_FAILED a r)
      | _, _ => []
      end
  | Reset =>
      map (fun e => to s (sco_peer (snd e)) (ScoBye REMOTE_USER_TERMINATED)) (order (scos s)) ++
      map (fun e => to s (acl_peer (snd e)) (Bye REMOTE_USER_TERMINATED)) (acls s)
  | _ => []
  end.

Definition jobs_of_packet (rssi : N) (p : air) (s : bredr) : list job :=
  let a := source p in
  let back b := [Transmit (Air (destination p) a b)] in
  match content p with
  | Bye reason => match acl_of a s with Some (h, _) => ended s h reason | None => [] end
  | InquiryPacket mode lap =>
      if inquiry_scan_enable s && existsb (N.eqb lap) (iac s) then
        if mode =? 0 then [to s a (InquiryAnswer 0 0 (class s) 0 0 [])]
        else if mode =? 1 then [to s a (InquiryAnswer 1 0 (class s) 0 rssi [])]
        else if mode =? 2 then [to s a (InquiryAnswer 2 0 (class s) 0 rssi (eir s))]
        else []
      else []
  | Page _ _ => if page_scan_enable s && negb (unmasked s 0x04) then [to s a (PageReject CONNECTION_TIMEOUT)] else []
  | NameRequest => back (NameResponse (name s))
  | FeaturesRequest => back (FeaturesResponse (nth 0 (lmp_features cfg) 0))
  | LmpFeaturesRequest => back (LmpFeaturesResponse (host_features s))
  | ExtendedFeaturesRequest n =>
      match get_features cfg s n with
      | Some f => back (ExtendedFeaturesResponse (if lenN (lmp_features cfg) <=? n then INVALID_LMP else SUCCESS) n (lenN (lmp_features cfg) - 1) f)
      | None => []
      end
  | VersionRequest => back (VersionResponse (lmp_version cfg) (lmp_subversion cfg mod 256) (company cfg))
  | ClockRequest => back (ClockResponse 0)
  | ScoRequest _ _ => if has_pending_sco order a s then [to s a (ScoResponse SYNCHRONOUS_LIMIT no_link)] else []
  | ScoBye reason => match sco_of order a s with Some (h, _) => ended s h reason | None => [] end
  | PingRequest => back PingResponse
  | SwitchRequest =>
      match acl_of a s with
      | Some (_, c) =>
          if N.testbit (acl_policy c) 0
          then to s a (SwitchResponse SUCCESS) :: when_unmasked s 0x12 (RoleChange SUCCESS a (other (acl_role c)))
          else [to s a (SwitchResponse ROLE_NOT_ALLOWED)]
      | None => []
      end
  | SwitchResponse st =>
      match acl_of a s with
      | Some (_, c) => when_unmasked s 0x12 (RoleChange st a (if st =? SUCCESS then other (acl_role c) else acl_role c))
      | None => []
      end
  | _ => []
  end.

Definition jobs_of (o : op) (s : bredr) : list job :=
  match o with
  | Command c => jobs_of_command c s
  | AclFromHost h b bc d =>
      match lookup (acls s) h with Some c => [to s (acl_peer c) (Acl b bc d)] | None => [] end ++ [Tell (CompletedPackets h 1)]
  | ScoFromHost h d => match lookup (scos s) h with Some c => [to s (sco_peer c) (Voice d)] | None => [] end
  | Receive rssi p => if for_me p s then jobs_of_packet rssi p s else []
  | Tick => []
  end.

Ltac gain :=
  cbn [fst snd]; repeat first
  [ match goal with G : gains ?n ?s0 ?s _ |- gains ?n ?s0 ?s _ => exact G end
  | match goal with |- gains _ _ (schedule _ (CheckLink _) _) _ => apply gains_later; [reflexivity|] end
  | match goal with |- gains _ _ (schedule _ (Stream _) _) _ => apply gains_later; [reflexivity|] end
  | match goal with |- gains _ _ (schedule _ _ _) _ => apply gains_schedule; [reflexivity|] end
  | match goal with |- gains _ _ (transmit _ _ _) _ => apply gains_schedule; [reflexivity|] end
  | match goal with |- gains _ _ (sco_answer _ _ _ _ _) _ => apply gains_schedule; [reflexivity|] end
  | match goal with |- gains _ _ (tell _ _ _) _ => apply gains_schedule; [reflexivity|] end
  | match goal with |- gains ?n _ (with_scos _ ?s) _ => apply (gains_same n _ s); [reflexivity..|] end
  | match goal with |- gains ?n _ (with_last_sco _ ?s) _ => apply (gains_same n _ s); [reflexivity..|] end
  | match goal with |- gains ?n _ (with_acls _ ?s) _ => apply (gains_same n _ s); [reflexivity..|] end
  | match goal with |- gains ?n _ (with_last_acl _ ?s) _ => apply (gains_same n _ s); [reflexivity..|] end
  | match goal with |- gains ?n _ (with_links _ ?s) _ => apply (gains_same n _ s); [reflexivity..|] end
  | match goal with |- gains ?n _ (with_page _ ?s) _ => apply (gains_same n _ s); [reflexivity..|] end
  | match goal with |- gains ?n _ (with_page_scan _ ?s) _ => apply (gains_same n _ s); [reflexivity..|] end
  | match goal with |- gains ?n _ (with_inquiry _ ?s) _ => apply (gains_same n _ s); [reflexivity..|] end
  | apply gains_refl; assumption ].
(** The jobs of [gain], up to the shape of the list *)
Ltac gained := eapply gains_is; [gain|reflexivity].

Lemma gains_ended : forall now h r s0 s js, mask s = mask s0 -> gains now s0 s js -> gains now s0 (tell_disconnection now h r s) (js ++ ended s0 h r).
Proof.
  intros now h r s0 s js M G. unfold tell_disconnection, ended, unmasked. rewrite M. destruct (N.testbit (mask s0) (5 - 1)); [gain|now rewrite app_nil_r].
Qed.
Lemma gains_when : forall now code e s0 s js, mask s = mask s0 -> gains now s0 s js ->
  gains now s0 (if unmasked s code then tell now e s else s) (js ++ when_unmasked s0 code e).
Proof.
  intros now code e s0 s js M G. unfold when_unmasked, unmasked. rewrite M. destruct (N.testbit (mask s0) (code - 1)); [gain|now rewrite app_nil_r].
Qed.
Lemma mask_close_sco : forall h s, mask (close_sco h s) = mask s.
Proof. intros h s. unfold close_sco. destruct (lookup (scos s) h) as [c|]; auto. cbv zeta. unfold stop_stream. now destruct (sco_stream c). Qed.
Lemma mask_tell_disconnection : forall now h r s, mask (tell_disconnection now h r s) = mask s.
Proof. intros. unfold tell_disconnection. now destruct (unmasked s 5). Qed.
Lemma address_close_sco : forall h s, address (close_sco h s) = address s.
Proof. intros h s. unfold close_sco. destruct (lookup (scos s) h) as [c|]; auto. cbv zeta. unfold stop_stream. now destruct (sco_stream c). Qed.
Lemma address_tell_disconnection : forall now h r s, address (tell_disconnection now h r s) = address s.
Proof. intros. unfold tell_disconnection. now destruct (unmasked s 5). Qed.
Lemma gains_close_acl : forall now h s0 s s' js, gains now s0 s js -> close_acl order h s = Ok s' -> gains now s0 s' js /\ mask s' = mask s.
Proof.
  intros now h s0 s s' js G. unfold close_acl. destruct (lookup (acls s) h); [|intros [= <-]; auto]. destruct (sco_of order _ s); [discriminate|].
  intros [= <-]. split; auto. gain.
Qed.

Lemma disconnect_gains : forall now h r r' s st s', core s -> punctual now s -> disconnect order now h r r' s = Ok (st, s') ->
  gains now s s' (jobs_disconnect h r r' s).
Proof.
  intros now h r r' s st s' C P. unfold disconnect, jobs_disconnect. destruct (lookup (scos s) h) as [c|].
  - intros [= <- <-]. eapply gains_is; [apply gains_ended; [now rewrite mask_close_sco|]; apply gains_close_sco; [apply core_schedule; exact C|gain]|reflexivity].
  - destruct (lookup (acls s) h) as [c|]; [|intros [= <- <-]; gained]. intros H. unbind H. injection H as <- <-.
    apply remove_link_effect in E0. destruct E0 as (_ & ->).
    set (s1 := match sco_of order (acl_peer c) s with Some _ => _ | None => _ end) in *.
    assert (G1 : gains now s s1 (match sco_of order (acl_peer c) s with Some (sh, _) => to s (acl_peer c) (ScoBye r) :: ended s sh r' | None => [] end) /\ mask s1 = mask s /\ address s1 = address s).
    { unfold s1. destruct (sco_of order (acl_peer c) s) as [[sh sc]|]; [|split; [gain|auto]].
      split; [|split].
      - eapply gains_is; [apply gains_ended; [now rewrite mask_close_sco|]; apply gains_close_sco; [apply core_schedule; exact C|gain]|reflexivity].
      - rewrite mask_tell_disconnection. now rewrite mask_close_sco.
      - rewrite address_tell_disconnection. now rewrite address_close_sco. }
    clearbody s1. destruct G1 as (G1 & M1 & A1).
    assert (G2 := gains_schedule now (Transmit (to_peer s1 (acl_peer c) (Bye r))) s s1 _ eq_refl G1).
    destruct (gains_close_acl _ _ _ _ _ _ G2 E) as (G3 & M3).
    match goal with |- gains _ _ (with_links _ ?x) _ => apply (gains_same now s x); [reflexivity..|] end.
    eapply gains_is; [apply gains_ended; [rewrite M3; exact M1|exact G3]|]. rewrite <- app_assoc. unfold to, to_peer. rewrite A1. reflexivity.
Qed.

Lemma open_gains : forall now a r pol s h s1 s2, core s -> punctual now s -> create_acl now a r pol s = Ok (h, s1) -> check_link order now h s1 = Ok s2 ->
  gains now s s2 [] /\ mask s2 = mask s /\ address s2 = address s /\ (exists l, get_unused_handle (acls s) kAclRangeStart kAclRangeEnd (last_acl s) = Some (h, l)).
Proof.
  intros now a r pol s h s1 s2 C P E E'. destruct (open_effect order _ _ _ _ _ _ _ _ C E E') as (NH & _ & l & ->).
  split; [gain|]. split; [reflexivity|]. split; [reflexivity|]. unfold create_acl in E. destruct (get_unused_handle _ _ _ _) as [[k l']|]; [|discriminate].
  injection E as -> _. eauto.
Qed.
Lemma open_stream_gains : forall now h s0 s s' js, gains now s0 s js -> open_stream order now h s = Ok s' -> gains now s0 s' js /\ mask s' = mask s /\ address s' = address s.
Proof.
  intros now h s0 s s' js G. unfold open_stream. destruct (lookup (scos s) h) as [c|]; [|intros [= <-]; auto]. destruct (sco_stream c); [discriminate|].
  destruct (sco_spoofed c); [|intros [= <-]; auto]. destruct (sco_of order (sco_peer c) s) as [[h' c']|]; [|discriminate]. unfold start_stream.
  intros [= <-]. split; [gain|auto].
Qed.
Lemma accept_negotiated_gains : forall now h c p s l s', core s -> punctual now s -> accept_negotiated order now h c p s = Ok (l, s') ->
  gains now s s' [] /\ mask s' = mask s /\ address s' = address s /\ l = agreed c p.
Proof.
  intros now h c p s l s' C P. unfold accept_negotiated, agreed. destruct (negotiate _ _ _) as [k|].
  - intros H. unbind H. injection H as <- <-. match type of E with open_stream _ _ _ ?x = _ => assert (G0 : gains now s x []) by gain end.
    destruct (open_stream_gains now h s _ _ [] G0 E) as (G & M & A). auto.
  - intros [= <- <-]. split; [gain|auto].
Qed.
Lemma create_sco_gains : forall now a p st sp leg s h s', core s -> punctual now s -> create_sco a p st sp leg s = Ok (h, s') ->
  gains now s s' [] /\ address s' = address s /\ class s' = class s.
Proof. intros now a p st sp leg s h s' C P. unfold create_sco. destruct (get_unused_handle _ _ _ _) as [[k l]|]; [|discriminate]. intros [= <- <-]. split; [gain|auto]. Qed.
Lemma setup_sync_gains : forall now h p sp leg s st s', core s -> punctual now s -> setup_sync order now h p sp leg s = Ok (st, s') -> gains now s s' (jobs_setup h p s).
Proof.
  intros now h p sp leg s st s' C P. unfold setup_sync, jobs_setup. destruct (lookup (acls s) h) as [c|]; [|intros [= <- <-]; gained].
  destruct (has_pending_sco order (acl_peer c) s); [intros [= <- <-]; gained|]. intros H. unbind H. injection H as <- <-.
  destruct (create_sco_gains now _ _ _ _ _ _ _ _ C P E) as (G & A & CL). eapply gains_is; [gain|]. unfold to, to_peer. now rewrite A, CL.
Qed.
Lemma cancel_sco_gains : forall now a s0 s js, gains now s0 s js -> gains now s0 (cancel_sco order a s) js /\ mask (cancel_sco order a s) = mask s /\ address (cancel_sco order a s) = address s.
Proof. intros now a s0 s js G. unfold cancel_sco. destruct (sco_of order a s) as [[h c]|]; auto. split; [gain|auto]. Qed.
Lemma accept_sync_gains : forall now a p s st s', core s -> punctual now s -> accept_sync order now a p s = Ok (st, s') -> gains now s s' (jobs_accept_sync a p s).
Proof.
  intros now a p s st s' C P. unfold accept_sync, jobs_accept_sync. destruct (sco_of order a s) as [[h c]|]; [|intros [= <- <-]; gained].
  destruct (is_pending c); [|intros [= <- <-]; gained]. intros H. unbind H. injection H as <- <-.
  destruct (accept_negotiated_gains _ _ _ _ _ _ _ C P E) as (G & M & A & ->). destruct (agreed c p) as [l|].
  - eapply gains_is; [gain|]. unfold to, to_peer. cbn [app]. now rewrite A.
  - destruct (cancel_sco_gains now a _ _ _ G) as (G' & M' & A'). eapply gains_is; [gain|]. unfold to, to_peer. cbn [app]. now rewrite A', A.
Qed.
Lemma accept_connection_gains : forall now a try s st s', core s -> punctual now s -> accept_connection order now a try s = Ok (st, s') -> gains now s s' (jobs_accept a try s).
Proof.
  intros now a try s st s' C P. unfold accept_connection, jobs_accept. destruct (paged_by a s).
  - destruct (has_acl_with a s); [intros [= <- <-]; gained|]. intros H. unbind H. injection H as <- <-.
    destruct (open_gains _ _ _ _ _ _ _ _ C P E E0) as (G & M & A & l & ->). apply add_link_effect in E1. destruct E1 as (_ & ->).
    set (al := negb (match page_scan s with Some p => scan_allow p | None => 0 end =? 0)) in *.
    set (R := (if role_eqb (if try && al then CENTRAL else PERIPHERAL) CENTRAL && unmasked x 18 then _ else _)) in *.
    assert (GR : gains now s R (if try && al then when_unmasked s 18 (RoleChange SUCCESS a CENTRAL) else []) /\ mask R = mask s /\ address R = address s).
    { unfold R, when_unmasked, unmasked. rewrite M. destruct (try && al); cbn [role_eqb andb]; [|split; [exact G|auto]].
      destruct (N.testbit (mask s) (18 - 1)); (split; [gained|auto]). }
    clearbody R. destruct GR as (GR & MR & AR).
    match goal with |- context [to_peer ?x a (PageResponse try)] => set (W := x) in * end.
    assert (GW : gains now s W ((if try && al then when_unmasked s 18 (RoleChange SUCCESS a CENTRAL) else []) ++ when_unmasked s 3 (ConnectionComplete SUCCESS n a LINK_ACL)) /\ address W = address s).
    { unfold W. split; [|match goal with |- context [if ?b then _ else _] => destruct b end; exact AR].
      apply gains_when; [exact MR|]. gain. }
    clearbody W. destruct GW as (GW & AW).
    match goal with |- gains _ _ (with_page_scan _ (if ?b then with_page _ ?x else _)) _ => apply (gains_same now s x); [now destruct b|now destruct b|] end.
    eapply gains_is; [gain|]. unfold to, to_peer. rewrite AW. now rewrite <- app_assoc.
  - destruct (sco_of order a s) as [[h c]|]; [|intros [= <- <-]; gained]. destruct (is_pending c); [|intros [= <- <-]; gained].
    intros H. unbind H. injection H as <- <-.
    destruct (accept_negotiated_gains _ _ _ _ _ _ _ C P E) as (G & M & A & ->). destruct (agreed c (sco_params c)) as [l|].
    + eapply gains_is; [apply gains_when; [exact M|gain]|]. unfold to, to_peer. cbn [app]. now rewrite A.
    + destruct (cancel_sco_gains now a _ _ _ G) as (G' & M' & A'). eapply gains_is; [apply gains_when; [cbn; now rewrite M'|gain]|].
      unfold to, to_peer. cbn [app]. now rewrite A', A.
Qed.

Lemma fold_gains : forall (T : Type) now (f : T -> bredr -> air) (j : T -> job) s0 l s js,
  (forall x s, address s = address s0 -> Transmit (f x s) = j x) -> address s = address s0 -> gains now s0 s js ->
  gains now s0 (fold_left (fun s x => transmit now (f x s) s) l s) (js ++ map j l) /\ address (fold_left (fun s x => transmit now (f x s) s) l s) = address s0.
Proof.
  intros T now f j s0. induction l as [|x l IH]; intros s js F A G; cbn [fold_left map]; [rewrite app_nil_r; auto|].
  destruct (IH (transmit now (f x s) s) (js ++ [j x]) F A) as (G' & A').
  - rewrite <- (F x s A). apply gains_schedule; auto.
  - split; auto. eapply gains_is; [exact G'|]. now rewrite <- app_assoc.
Qed.
Lemma reset_gains : forall now s, core s -> punctual now s -> gains now s (reset order now s) (jobs_of_command Reset s).
Proof.
  intros now s C P. unfold reset. cbn [jobs_of_command].
  assert (C1 : core (disconnect_all order now REMOTE_USER_TERMINATED s)).
  { unfold disconnect_all. apply core_fold; [intros; now apply core_schedule|]. apply core_fold; [intros; now apply core_schedule|]. exact C. }
  assert (G1 : gains now s (disconnect_all order now REMOTE_USER_TERMINATED s)
    (map (fun e => to s (sco_peer (snd e)) (ScoBye REMOTE_USER_TERMINATED)) (order (scos s)) ++ map (fun e => to s (acl_peer (snd e)) (Bye REMOTE_USER_TERMINATED)) (acls s))).
  { unfold disconnect_all.
    destruct (fold_gains _ now (fun e x => to_peer x (sco_peer (snd e)) (ScoBye REMOTE_USER_TERMINATED)) (fun e => to s (sco_peer (snd e)) (ScoBye REMOTE_USER_TERMINATED)) s
      (order (scos s)) s [] ltac:(intros e x A; unfold to, to_peer; now rewrite A) eq_refl (gains_refl _ _ C P)) as (G & A).
    set (s1 := fold_left _ _ _) in *.
    assert (AC : acls s1 = acls s).
    { unfold s1. assert (X : forall l x, acls (fold_left (fun s (e : N * sco_link) => transmit now (to_peer s (sco_peer (snd e)) (ScoBye REMOTE_USER_TERMINATED)) s) l x) = acls x)
        by (induction l as [|y l IH]; intros x; cbn [fold_left]; [auto|]; rewrite IH; reflexivity). apply X. }
    clearbody s1.
    destruct (fold_gains _ now (fun e x => to_peer x (acl_peer (snd e)) (Bye REMOTE_USER_TERMINATED)) (fun e => to s (acl_peer (snd e)) (Bye REMOTE_USER_TERMINATED)) s
      (acls s) s1 _ ltac:(intros e x A'; unfold to, to_peer; now rewrite A') A G) as (G' & _). rewrite AC. exact G'. }
  set (s1 := disconnect_all _ _ _ _) in *. clearbody s1.
  assert (G2 : forall l s0, core s0 -> gains now s s0 (map (fun e => to s (sco_peer (snd e)) (ScoBye REMOTE_USER_TERMINATED)) (order (scos s)) ++ map (fun e => to s (acl_peer (snd e)) (Bye REMOTE_USER_TERMINATED)) (acls s)) ->
    (forall e, In e l -> In e (scos s0)) -> gains now s (fold_left (fun s e => stop_stream (snd e) s) l s0)
      (map (fun e => to s (sco_peer (snd e)) (ScoBye REMOTE_USER_TERMINATED)) (order (scos s)) ++ map (fun e => to s (acl_peer (snd e)) (Bye REMOTE_USER_TERMINATED)) (acls s))).
  { induction l as [|[h c] l IH]; cbn [fold_left]; intros s0 C0 A0 I; auto. apply IH.
    - now apply core_stop_stream.
    - cbn [snd]. eapply gains_stop_stream; [exact C0|apply I; now left|exact A0].
    - intros e J. cbn [snd]. rewrite scos_stop_stream. apply I. now right. }
  cbv zeta. eapply (gains_same now s (fold_left _ _ _)); [reflexivity|reflexivity|]. apply G2; auto.
Qed.

Theorem command_gains : forall now s c st s' out, core s -> punctual now s -> run_command order cfg now s c = Ok (st, s', out) -> gains now s s' (jobs_of_command c s).
Proof.
  intros now s c st s' out C P H. destruct c; cbn [run_command] in H; unfold quiet in H;
    try (injection H as <- <- <-; cbn [fst snd]);
    try (unbind H; injection H as <- <- <-; cbn [fst snd]); cbn [jobs_of_command];
    try (apply (gains_same now s s); [reflexivity..|apply gains_refl; assumption]).
  - unfold start_inquiry. destruct (_ || _); [gain|]. destruct (inquiry s); gain.
  - unfold cancel_inquiry. destruct (inquiry s); gain.
  - unfold create_connection. destruct (page s); [gain|]. destruct (has_acl_with a s); [gain|]. destruct (paged_by a s); gain.
  - unfold cancel_connection. destruct (paging a s); [|gain]. cbn [snd].
    match goal with |- gains _ _ (with_page _ ?x) _ => apply (gains_same now s x); [reflexivity..|] end.
    eapply gains_is; [apply gains_when; [reflexivity|gain]|reflexivity].
  - eapply disconnect_gains; eassumption.
  - eapply accept_connection_gains; eassumption.
  - unfold reject_connection. destruct (paged_by a s); gained.
  - unfold change_packet_type. destruct (has (acls s) h); gained.
  - unfold remote_name. gained.
  - unfold ask_peer, jobs_ask. destruct (lookup (acls s) h); gained.
  - unfold ask_peer, jobs_ask. destruct (lookup (acls s) h); gained.
  - unfold ask_peer, jobs_ask. destruct (lookup (acls s) h); gained.
  - unfold ask_peer, jobs_ask. destruct (lookup (acls s) h); gained.
  - eapply setup_sync_gains; eassumption.
  - eapply setup_sync_gains; eassumption.
  - eapply accept_sync_gains; eassumption.
  - unfold reject_sync. destruct (has_pending_sco order a s); [|gained]. cbn [snd].
    destruct (cancel_sco_gains now a s s [] (gains_refl _ _ C P)) as (G & _ & A). eapply gains_is; [gain|]. unfold to, to_peer. now rewrite A.
  - destruct (enhanced_ok p e); [|injection H as <- <- <-; gain]. unbind H. injection H as <- <- <-. eapply setup_sync_gains; eassumption.
  - destruct (enhanced_ok p e); [|injection H as <- <- <-; gain]. unbind H. injection H as <- <- <-. eapply accept_sync_gains; eassumption.
  - unfold qos_setup. destruct (has (acls s) h); cbn [negb andb snd]; [|gain]. destruct (2 <? service); cbn [negb snd]; [gain|].
    eapply gains_is; [apply gains_when; [reflexivity|gain]|reflexivity].
  - destruct (lookup (acls s) h); injection H as <- <- <-; gain.
  - unfold switch_role. destruct (acl_of a s) as [[h c]|]; [|gain]. destruct (sco_of order a s); [gain|]. cbn [snd].
    destruct (negb (role_eqb r (acl_role c))); [gained|]. eapply gains_is; [apply gains_when; [reflexivity|gain]|reflexivity].
  - unfold write_link_policy. destruct (lookup (acls s) h) as [c|]; [|gain]. destruct (7 <? n); gain.
  - destruct (7 <? n); injection H as <- <- <-; [gain|]. apply (gains_same now s s); [reflexivity..|apply gains_refl; assumption].
  - now apply reset_gains.
Qed.

Theorem dispatch_gains : forall now rssi p s s' out, core s -> punctual now s -> dispatch order cfg now rssi p s = Ok (s', out) -> gains now s s' (jobs_of_packet rssi p s).
Proof.
  intros now rssi p s s' out C P H. unfold dispatch in H. unfold jobs_of_packet. destruct (content p); unfold silent, answering in H;
    try (injection H as <- <-); try (gained; fail).
  - unbind H. injection H as <- <-. unfold receive_bye in E. destruct (acl_of (source p) s) as [[h c]|]; [|injection E as <-; gain]. unbind E. injection E as <-.
    apply remove_link_effect in E1. destruct E1 as (_ & ->). destruct (gains_close_acl now h s s _ [] (gains_refl _ _ C P) E0) as (G & M).
    eapply gains_is; [apply gains_ended; [exact M|gain]|reflexivity].
  - unfold receive_inquiry. destruct (inquiry_scan_enable s); cbn [negb andb]; [|gain]. destruct (existsb _ _); cbn [negb]; [|gain].
    destruct (mode =? 0); [gained|]. destruct (mode =? 1); [gained|]. destruct (mode =? 2); gained.
  - injection H as H. unfold receive_page in H. destruct (page_scan_enable s); cbn [negb andb] in *; [|injection H as <- <-; gain].
    destruct (unmasked s 4); cbn [negb] in *; [|injection H as <- <-; gained]. destruct (has_acl_with _ s); [injection H as <- <-; gain|]. destruct (page_scan s); injection H as <- <-; gain.
  - unfold receive_page_response in H. destruct (paging (source p) s); [|injection H as <- <-; gain]. unbind H. injection H as <- <-.
    destruct (open_gains _ _ _ _ _ _ _ _ C P E E0) as (G & _). apply add_link_effect in E1. destruct E1 as (_ & ->). gain.
  - injection H as H. unfold receive_page_reject in H. destruct (paging (source p) s); injection H as <- <-; gain.
  - unbind H. injection H as <- <-. unfold receive_extended_request in E. destruct (get_features cfg s page); [|discriminate]. injection E as <-. gained.
  - unfold receive_sco_request in H. destruct (has_pending_sco order (source p) s); [injection H as <- <-; gained|].
    unbind H. injection H as <- <-. eapply (create_sco_gains now); eassumption.
  - unfold receive_sco_response in H. destruct (sco_of order (source p) s) as [[h c]|]; [|injection H as <- <-; gain].
    destruct (st =? SUCCESS).
    + unbind H. injection H as <- <-. unfold accept_given in E. eapply (open_stream_gains now); [|exact E]. gain.
    + no_stream H. injection H as <- <-. apply cancel_sco_gains. gain.
  - unfold receive_sco_bye. destruct (sco_of order (source p) s) as [[h c]|]; [|gain].
    eapply gains_is; [apply gains_ended; [now rewrite mask_close_sco|apply gains_close_sco; [exact C|gain]]|reflexivity].
  - unfold receive_switch_request. destruct (acl_of (source p) s) as [[h c]|]; [|gain]. destruct (N.testbit _ 0); [|gained]. cbv zeta.
    eapply gains_is; [apply gains_when; [reflexivity|gain]|reflexivity].
  - unfold receive_switch_response. destruct (acl_of (source p) s) as [[h c]|]; [|gain]. cbv zeta.
    eapply gains_is; [apply gains_when; [reflexivity|gain]|reflexivity].
Qed.

(** The packet is looked at after the link was marked as alive: that changes no job *)
Lemma put_head : forall (C : Type) (m : table C) j d k c, put ((j, d) :: m) k c = if j =? k then (k, c) :: m else (j, d) :: put m k c.
Proof. reflexivity. Qed.
Lemma find_put : forall (f : N * acl_link -> bool) t h c c', NoDup (keys t) -> find f t = Some (h, c) -> f (h, c') = true -> find f (put t h c') = Some (h, c').
Proof.
  intros f. induction t as [|[k d] t IH]; intros h c c' ND F FC; [discriminate|]. cbn [keys map fst] in ND. inversion ND as [|x l NI ND']; subst. cbn [find] in F.
  destruct (f (k, d)) eqn:FK.
  - injection F as -> ->. rewrite put_head, N.eqb_refl. cbn [find]. now rewrite FC.
  - assert (NE : k <> h). { intros ->. apply find_some in F. destruct F as (F & _). apply NI. apply in_map_iff. now exists (h, c). }
    rewrite put_head. apply N.eqb_neq in NE. rewrite NE. cbn [find]. rewrite FK. eapply IH; eauto.
Qed.
Lemma acl_of_heard : forall now a s h c, core s -> acl_of a s = Some (h, c) -> acl_of a (heard_from now a s) = Some (h, with_last_heard now c).
Proof.
  intros now a s h c C F. unfold heard_from. rewrite F. unfold acl_of in *. cbn [acls with_acls]. apply find_put with c; auto.
  - apply (HandlesProofs.tinv_nodup _ _ _ _ (core_acl s C)).
  - apply find_some in F. destruct F as (_ & F). exact F.
Qed.
Lemma acl_of_heard_none : forall now a s, acl_of a s = None -> heard_from now a s = s.
Proof. intros now a s F. unfold heard_from. now rewrite F. Qed.
Lemma packet_heard : forall now rssi p s, core s -> jobs_of_packet rssi p (heard_from now (source p) s) = jobs_of_packet rssi p s.
Proof.
  intros now rssi p s C. destruct (acl_of (source p) s) as [[h c]|] eqn:F; [|now rewrite acl_of_heard_none].
  pose proof (acl_of_heard now _ _ _ _ C F) as F'. unfold jobs_of_packet. rewrite F, F'.
  assert (HF : exists t, heard_from now (source p) s = with_acls t s) by (unfold heard_from; rewrite F; eauto). destruct HF as (t & HF). rewrite HF. reflexivity.
Qed.

Theorem step_gains : forall last now s o s' st out, core s -> last <= now -> punctual last s -> o <> Tick -> step order cfg now s o = Ok (s', st, out) ->
  gains now s s' (jobs_of o s).
Proof.
  intros last now s o s' st out C L PL NT H. assert (P : punctual now s) by (intros t I Q; specialize (PL t I Q); lia).
  destruct o as [c|h b bc d|h d|rssi p|]; cbn [step] in H; unbind H; try (injection H as <- <- <-); cbn [jobs_of].
  - eapply command_gains; eassumption.
  - unfold handle_acl in E. destruct (negb _); [discriminate|]. injection E as <-. destruct (lookup (acls s) h); gained.
  - unfold send_sco. destruct (lookup (scos s) h); gained.
  - unfold receive in E. destruct (for_me p s); [|injection E as <- <-; gain].
    assert (C' := core_heard now (source p) s C).
    assert (PH : punctual now (heard_from now (source p) s)). { unfold heard_from. destruct (acl_of (source p) s) as [[h c]|]; exact P. }
    destruct (dispatch_gains _ _ _ _ _ _ C' PH E) as [Q U EQ]. rewrite packet_heard in EQ by exact C. constructor; auto. rewrite EQ. f_equal.
    unfold heard_from. destruct (acl_of (source p) s) as [[h c]|]; reflexivity.
  - congruence.
Qed.
End WithOrder.

(** * The tick *)
(** What a job sends when it is run *)
Definition outcome (s : bredr) (j : job) : list output :=
  match j with
  | Transmit p => [Sent p]
  | Tell e => [Event e]
  | TellPacketType h n => said s 0x1d (PacketTypeChanged SUCCESS h n)
  | RejectPage a reason => said s 0x03 (ConnectionComplete reason 0xeff a LINK_ACL)
  | CheckLink _ | Stream _ => []
  end.
(** The jobs a tick may leave for the next one *)
Definition made (streaming : Prop) (j : job) : Prop :=
  match j with
  | Transmit p =>
      match content p with
      | PingRequest | Bye _ | ScoBye _ | Page _ _ | InquiryPacket _ _ | PageReject _ => True
      | Voice _ => streaming
      | _ => False
      end
  | Tell (DisconnectionComplete _ _ _) => True
  | CheckLink _ => True
  | Stream _ => streaming
  | _ => False
  end.
Definition streaming (s : bredr) : Prop := exists t h, In t (queue s) /\ what_to_do t = Stream h.

Section Tick.
Variable order : table sco_link -> table sco_link.
Variable cfg : config.
Hypothesis any_order : forall t, Permutation (order t) t.

Section Made.
Variable S : Prop.
Definition leaves (s s' : bredr) : Prop := forall t, In t (queue s') -> In t (queue s) \/ made S (what_to_do t).
Lemma leaves_refl : forall s, leaves s s.
Proof. intros s t I. now left. Qed.
Lemma leaves_trans : forall a b c, leaves a b -> leaves b c -> leaves a c.
Proof. intros a b c A B t I. apply B in I. destruct I as [I|I]; auto. Qed.
Lemma leaves_same : forall s0 s s', queue s' = queue s -> leaves s0 s -> leaves s0 s'.
Proof. intros s0 s s' E A t I. rewrite E in I. now apply A. Qed.
Lemma leaves_schedule : forall t j s0 s, made S j -> leaves s0 s -> leaves s0 (schedule t j s).
Proof. intros t j s0 s Q A u I. cbn [queue schedule with_queue with_next_id] in I. apply in_insert in I. destruct I as [->|I]; auto. Qed.
Lemma leaves_tell_disconnection : forall now h r s0 s, leaves s0 s -> leaves s0 (tell_disconnection now h r s).
Proof. intros. unfold tell_disconnection. destruct (unmasked s 5); auto. now apply leaves_schedule. Qed.
Lemma leaves_close_sco : forall h s0 s, leaves s0 s -> leaves s0 (close_sco h s).
Proof.
  intros h s0 s A. unfold close_sco. destruct (lookup (scos s) h) as [c|]; auto. cbv zeta.
  apply (leaves_same s0 (stop_stream c s)); [reflexivity|]. unfold stop_stream. destruct (sco_stream c); auto.
  intros t I. apply A. eapply in_remove_task, I.
Qed.
Lemma leaves_disconnect : forall now h r r' s st s', disconnect order now h r r' s = Ok (st, s') -> leaves s s'.
Proof.
  intros now h r r' s st s'. unfold disconnect. destruct (lookup (scos s) h) as [c|].
  - intros [= <- <-]. apply leaves_tell_disconnection, leaves_close_sco, leaves_schedule; [exact Logic.I|apply leaves_refl].
  - destruct (lookup (acls s) h) as [c|]; [|intros [= <- <-]; apply leaves_refl]. intros H. unbind H. injection H as <- <-.
    apply remove_link_effect in E0. destruct E0 as (_ & ->).
    match goal with |- leaves _ (with_links _ ?x) => apply (leaves_same s x); [reflexivity|] end. apply leaves_tell_disconnection.
    unfold close_acl in E. destruct (lookup (acls _) h) as [c'|]; [|injection E as <-; apply leaves_schedule; [exact Logic.I|]].
    + destruct (sco_of order (acl_peer c') _); [discriminate|]. injection E as <-.
      match goal with |- leaves _ (with_acls _ ?x) => apply (leaves_same s x); [reflexivity|] end. apply leaves_schedule; [exact Logic.I|].
      destruct (sco_of order (acl_peer c) s) as [[sh sc]|]; [|apply leaves_refl].
      apply leaves_tell_disconnection, leaves_close_sco, leaves_schedule; [exact Logic.I|apply leaves_refl].
    + destruct (sco_of order (acl_peer c) s) as [[sh sc]|]; [|apply leaves_refl].
      apply leaves_tell_disconnection, leaves_close_sco, leaves_schedule; [exact Logic.I|apply leaves_refl].
Qed.
Lemma leaves_check_link : forall now h s s', check_link order now h s = Ok s' -> leaves s s'.
Proof.
  intros now h s s'. unfold check_link. destruct (lookup (acls s) h) as [c|]; [|intros [= <-]; apply leaves_refl].
  destruct (_ <? _); [|destruct (_ <? _)].
  - intros H. unbind H. injection H as <-. eapply leaves_disconnect; eassumption.
  - intros [= <-]. apply leaves_schedule; [exact Logic.I|]. apply leaves_schedule; [exact Logic.I|apply leaves_refl].
  - intros [= <-]. apply leaves_schedule; [exact Logic.I|apply leaves_refl].
Qed.
Lemma leaves_do_paging : forall now s, leaves s (fst (do_paging now s)).
Proof.
  intros now s. unfold do_paging. destruct (page s) as [p|]; [|apply leaves_refl]. destruct (_ <=? _); [now apply (leaves_same s s); [|apply leaves_refl]|].
  destruct (_ && _); [|apply leaves_refl]. cbv zeta. cbn [fst]. eapply (leaves_same s (transmit now _ s)); [reflexivity|].
  apply leaves_schedule; [exact Logic.I|apply leaves_refl].
Qed.
Lemma leaves_do_inquiry : forall now s, leaves s (fst (do_inquiry now s)).
Proof.
  intros now s. unfold do_inquiry. destruct (inquiry s) as [p|]; [|apply leaves_refl]. destruct (_ <=? _); [now apply (leaves_same s s); [|apply leaves_refl]|].
  destruct (_ <=? _); [|apply leaves_refl]. cbv zeta. cbn [fst]. eapply (leaves_same s (transmit now _ s)); [reflexivity|].
  apply leaves_schedule; [exact Logic.I|apply leaves_refl].
Qed.
Lemma leaves_run_job : forall now t q s s' out, (forall h, what_to_do t = Stream h -> S) -> run_job order now t (with_queue q s) = Ok (s', out) -> leaves (with_queue q s) s'.
Proof.
  intros now t q s s' out ST H. unfold run_job in H. destruct (what_to_do t) eqn:J; try (injection H as <- <-; apply leaves_refl).
  - injection H as <- <-. apply leaves_schedule; [exact Logic.I|apply leaves_refl].
  - unfold answering in H. unbind H. injection H as <- <-. eapply leaves_check_link; eassumption.
  - unfold silent in H. injection H as <- <-. intros u I. cbn [queue with_queue] in I. apply in_insert in I. destruct I as [->|I]; [right; now apply (ST h)|].
    unfold send_sco in I. destruct (lookup (scos _) h); [|now left]. cbn [transmit schedule queue with_queue with_next_id] in I. apply in_insert in I.
    destruct I as [->|I]; [right|now left]. cbn. now apply (ST h).
Qed.
End Made.

(** The jobs of the run that are still to be done *)
Definition to_do (now limit : N) (s : bredr) : list job := filter prompt (map what_to_do (filter (eligible now limit) (queue s))).
Lemma to_do_split : forall now limit s, to_do now limit s = map what_to_do (filter (fun t => prompt (what_to_do t) && eligible now limit t) (queue s)).
Proof.
  intros now limit s. unfold to_do. induction (queue s) as [|t q IH]; auto. cbn [filter]. destruct (eligible now limit t); cbn [map filter].
  - rewrite Bool.andb_true_r. destruct (prompt (what_to_do t)); cbn [map]; now rewrite IH.
  - rewrite Bool.andb_false_r. exact IH.
Qed.
Lemma to_do_ext : forall ho ok now limit s s', core s -> core s' -> limit <= next_id s -> ext ho ok now s s' -> to_do now limit s' = to_do now limit s.
Proof.
  intros ho ok now limit s s' C C' L A. rewrite !to_do_split. f_equal.
  apply sorted_unique; [apply sorted_filter, gq_sorted, core_queue, C'|apply sorted_filter, gq_sorted, core_queue, C|].
  intros t. rewrite !filter_In. split; intros (I & D); (split; [|exact D]); apply Bool.andb_true_iff in D; destruct D as (D1 & D2).
  - destruct (ext_new _ _ _ _ _ A t I) as [J|(J & _)]; auto. unfold eligible in D2. apply Bool.andb_true_iff in D2. destruct D2 as (_ & D2). apply N.ltb_lt in D2. lia.
  - apply (ext_keep _ _ _ _ _ A); auto. now destruct (what_to_do t).
Qed.
Lemma outcome_mask : forall s s' j, mask s' = mask s -> outcome s' j = outcome s j.
Proof. intros s s' j M. destruct j; cbn [outcome]; auto; unfold said, unmasked; now rewrite M. Qed.
Lemma to_do_pop : forall now limit t q s, queue s = t :: q -> eligible now limit t = true ->
  to_do now limit s = (if prompt (what_to_do t) then [what_to_do t] else []) ++ to_do now limit (with_queue q s).
Proof.
  intros now limit t q s EQ EL. unfold to_do. rewrite EQ. cbn [queue with_queue filter]. rewrite EL. cbn [map filter]. now destruct (prompt (what_to_do t)).
Qed.

Lemma run_job_outcome : forall now limit t q s s' out, core s -> running now limit s -> queue s = t :: q -> eligible now limit t = true ->
  run_job order now t (with_queue q s) = Ok (s', out) -> out = outcome s (what_to_do t) /\ to_do now limit s' = to_do now limit (with_queue q s) /\ mask s' = mask s.
Proof.
  intros now limit t q s s' out C R EQ EL H. pose proof (core_pop t q s C EQ) as CP. pose proof (core_run_job order _ _ _ _ _ _ C EQ H) as C'.
  pose proof (run_id _ _ _ R) as RI.
  assert (EXT : forall x, core x -> ext (fun _ => True) true now (with_queue q s) x -> to_do now limit x = to_do now limit (with_queue q s)).
  { intros x CX A. eapply to_do_ext; [exact CP|exact CX|exact RI|exact A]. }
  unfold run_job in H. destruct (what_to_do t) eqn:J; cbn [outcome].
  - injection H as <- <-. auto.
  - injection H as <- <-. auto.
  - injection H as <- <-. split; [|auto]. unfold said, unmasked. reflexivity.
  - unfold reject_page in H. injection H as <- <-. split; [|split; [|reflexivity]].
    + unfold said, unmasked. reflexivity.
    + apply EXT; [exact C'|]. apply ext_schedule; [lia|reflexivity|reflexivity|apply ext_refl].
  - unfold answering in H. unbind H. injection H as <- <-. split; auto. split.
    + apply EXT; auto. eapply ext_check_link; eassumption.
    + destruct (keep_check_link order _ _ _ _ E) as (SE & _). change (mask s) with (mask (with_queue q s)). unfold settings in SE. congruence.
  - unfold silent in H. injection H as <- <-. split; auto. split.
    + set (x := send_sco now h [0; 0; 0; 0; 0] (with_queue q s)) in *.
      assert (A : ext (fun _ => True) true now (with_queue q s) x) by (unfold x, send_sco; destruct (lookup (scos (with_queue q s)) h); [apply ext_schedule; [lia|reflexivity|reflexivity|]|]; apply ext_refl).
      assert (CX : core x) by (unfold x, send_sco; destruct (lookup (scos (with_queue q s)) h); [apply core_schedule|]; exact CP).
      rewrite <- (EXT x CX A). unfold to_do. cbn [queue with_queue].
      assert (NE : eligible now limit (Task (now + 20000) (ident t) (Stream h)) = false).
      { unfold eligible. cbn [due]. assert (F : now + 20000 <=? now = false) by (apply N.leb_gt; lia). now rewrite F. }
      assert (Z : forall u l, eligible now limit u = false -> filter (eligible now limit) (insert u l) = filter (eligible now limit) l).
      { intros u l F. induction l as [|v l IH]; cbn [insert filter]; [now rewrite F|]. destruct (before u v); cbn [filter]; [now rewrite F|]. now rewrite IH. }
      now rewrite Z.
    + unfold send_sco. cbn [mask with_queue]. destruct (lookup (scos (with_queue q s)) h); reflexivity.
Qed.

Lemma run_tasks_outcome : forall now limit fuel s s' out, core s -> running now limit s -> run_tasks order now limit fuel s = Ok (s', out) ->
  out ++ flat_map (outcome s) (to_do now limit s') = flat_map (outcome s) (to_do now limit s) /\ mask s' = mask s.
Proof.
  intros now limit. induction fuel as [|fuel IH]; cbn [run_tasks]; intros s s' out C R H; [injection H as <- <-; auto|].
  destruct (queue s) as [|t q] eqn:EQ; [injection H as <- <-; auto|]. fold (eligible now limit t) in H.
  destruct (eligible now limit t) eqn:EL; [|injection H as <- <-; auto]. unbind H. injection H as <- <-.
  pose proof (core_run_job order _ _ _ _ _ _ C EQ E) as C'. destruct (running_job (fun _ => True) true order _ _ _ _ _ _ _ C R EQ EL E) as (R' & _).
  destruct (run_job_outcome _ _ _ _ _ _ _ C R EQ EL E) as (-> & TD & M). destruct (IH _ _ _ C' R' E0) as (IH1 & IH2). split; [|congruence].
  assert (X : forall l, flat_map (outcome s) l = flat_map (outcome b) l). { induction l as [|j l IHl]; auto. cbn [flat_map]. rewrite IHl. f_equal. now apply outcome_mask. }
  rewrite <- app_assoc, X. rewrite IH1, TD. rewrite (to_do_pop now limit t q s EQ EL), flat_map_app, !X. f_equal.
  destruct (prompt (what_to_do t)) eqn:P; cbn [flat_map]; [rewrite app_nil_r; symmetry; now apply outcome_mask|]. now destruct (what_to_do t).
Qed.
Lemma run_tasks_leaves : forall (S : Prop) now limit fuel s s' out, (forall t h, In t (queue s) -> what_to_do t = Stream h -> S) ->
  run_tasks order now limit fuel s = Ok (s', out) -> leaves S s s'.
Proof.
  intros S now limit. induction fuel as [|fuel IH]; cbn [run_tasks]; intros s s' out K H; [injection H as <- <-; apply leaves_refl|].
  destruct (queue s) as [|t q] eqn:EQ; [injection H as <- <-; apply leaves_refl|]. destruct (_ && _); [|injection H as <- <-; apply leaves_refl].
  unbind H. injection H as <- <-.
  assert (L1 : leaves S s b).
  { eapply leaves_trans; [|eapply leaves_run_job; [|exact E]].
    - intros u I. left. rewrite EQ. now right.
    - intros h J. eapply (K t); [now left|exact J]. }
  eapply leaves_trans; [exact L1|]. eapply IH; [|exact E0]. intros u h I J. destruct (L1 u I) as [I'|I'].
  - rewrite EQ in I'. now apply (K u h).
  - rewrite J in I'. exact I'.
Qed.

(** A tick sends the pending jobs in order, then what paging and inquiry send; it leaves
    only jobs of its own *)
Theorem tick_outcome : forall last now s s' out, core s -> last <= now -> watched last s -> punctual last s -> tick order now s = Ok (s', out) ->
  exists s1, out = flat_map (outcome s) (pending s) ++ snd (do_paging now s1) ++ snd (do_inquiry now (fst (do_paging now s1))) /\
    keep s s1 /\ s' = fst (do_inquiry now (fst (do_paging now s1))) /\ forall j, In j (pending s') -> made (streaming s) j.
Proof.
  intros last now s s' out C L W P H. unfold tick in H. unbind H. injection H as <- <-. exists b.
  assert (R : running now (next_id s) s).
  { constructor; [|lia| |].
    - intros t I LE. pose proof (gq_fresh _ (core_queue s C) t I). lia.
    - intros h c E'. destruct (W h c E') as (B & X). split; auto. lia.
    - intros t I Q. specialize (P t I Q). lia. }
  destruct (run_complete (fun _ => True) true order now (next_id s) _ _ _ _ C R (filter_shorter _ _ _) E) as (C1 & R1 & N1).
  destruct (run_tasks_outcome _ _ _ _ _ _ C R E) as (O & M).
  assert (TD : to_do now (next_id s) b = []).
  { unfold to_do. assert (X : forall l, (forall t, In t l -> eligible now (next_id s) t = false) -> filter (eligible now (next_id s)) l = []).
    { intros q; induction q as [|t q IH]; intros K; auto. cbn [filter]. rewrite K by now left. apply IH. intros u I. apply K. now right. }
    now rewrite X. }
  assert (TS : to_do now (next_id s) s = pending s).
  { unfold to_do, pending. assert (X : forall l, (forall t, In t l -> prompt (what_to_do t) = true -> eligible now (next_id s) t = true) ->
      filter prompt (map what_to_do (filter (eligible now (next_id s)) l)) = filter prompt (map what_to_do l)).
    { intros q; induction q as [|t q IH]; intros K; auto. cbn [filter map]. destruct (eligible now (next_id s) t) eqn:EL; cbn [filter map].
      - rewrite IH; auto. intros u I. apply K. now right.
      - destruct (prompt (what_to_do t)) eqn:PT; [rewrite (K t (or_introl eq_refl) PT) in EL; discriminate|]. apply IH. intros u I. apply K. now right. }
    apply X. intros t I PT. unfold eligible. specialize (P t I PT). pose proof (gq_fresh _ (core_queue s C) t I).
    assert (A1 : due t <=? now = true) by (apply N.leb_le; lia). assert (A2 : ident t <? next_id s = true) by now apply N.ltb_lt. now rewrite A1, A2. }
  rewrite TD in O. cbn [flat_map] in O. rewrite app_nil_r, TS in O. split; [|split; [|split]].
  - rewrite O, E0. cbn [fst snd]. rewrite E1. reflexivity.
  - eapply keep_run_tasks; eassumption.
  - rewrite E0. cbn [fst]. rewrite E1. reflexivity.
  - intros j I. unfold pending in I. apply filter_In in I. destruct I as (I & PJ). apply in_map_iff in I. destruct I as (t & <- & I).
    assert (LV : leaves (streaming s) s b1).
    { eapply leaves_trans; [eapply run_tasks_leaves; [|exact E]; intros u h J K; now exists u, h|].
      eapply leaves_trans; [pose proof (leaves_do_paging (streaming s) now b) as X; rewrite E0 in X; exact X|].
      pose proof (leaves_do_inquiry (streaming s) now b0) as X; rewrite E1 in X; exact X. }
    destruct (LV t I) as [J|J]; auto. exfalso.
    assert (A1 : ext (fun _ => True) true now b b0) by (pose proof (ext_do_paging (fun _ => True) true now b) as X; now rewrite E0 in X).
    assert (A2 : ext (fun _ => True) true now b0 b1) by (pose proof (ext_do_inquiry (fun _ => True) true now b0) as X; now rewrite E1 in X).
    assert (LN : next_id s <= next_id b) by (apply (run_id _ _ _ R1)).
    pose proof (gq_fresh _ (core_queue s C) t J) as F. specialize (P t J PJ).
    assert (JB : In t (queue b)).
    { destruct (ext_new _ _ _ _ _ (ext_trans _ _ _ _ _ _ A1 A2) t I) as [K|(K & _)]; auto. lia. }
    specialize (N1 t JB). unfold eligible in N1.
    assert (B1 : due t <=? now = true) by (apply N.leb_le; lia). assert (B2 : ident t <? next_id s = true) by now apply N.ltb_lt. rewrite B1, B2 in N1. discriminate.
Qed.

(** * Histories *)
Theorem history_gains : forall h s now o s' st out, history order cfg h s -> timely (Entry now o st out :: h) -> o <> Tick -> step order cfg now s o = Ok (s', st, out) ->
  pending s' = pending s ++ jobs_of order cfg o s.
Proof.
  intros h s now o s' st out H (T1 & T2) NT E. destruct (timed_history order cfg any_order _ _ H T2) as (_ & P).
  assert (L : latest h <= now). { destruct h as [|e h']; cbn [latest]; [lia|]. apply (T1 e). now left. }
  apply (gains_pending now). eapply step_gains; eauto. now apply (core_history order cfg any_order h).
Qed.
Theorem history_tick : forall h s now s' st out, history order cfg h s -> timely (Entry now Tick st out :: h) -> step order cfg now s Tick = Ok (s', st, out) ->
  exists s1, out = flat_map (outcome s) (pending s) ++ snd (do_paging now s1) ++ snd (do_inquiry now (fst (do_paging now s1))) /\
    keep s s1 /\ s' = fst (do_inquiry now (fst (do_paging now s1))) /\ forall j, In j (pending s') -> made (streaming s) j.
Proof.
  intros h s now s' st out H (T1 & T2) E. destruct (timed_history order cfg any_order _ _ H T2) as (W & P).
  assert (L : latest h <= now). { destruct h as [|e h']; cbn [latest]; [lia|]. apply (T1 e). now left. }
  cbn [step] in E. unbind E. injection E as <- <- <-. eapply tick_outcome; eauto. now apply (core_history order cfg any_order h).
Qed.
End Tick.
