(** The BR/EDR controller: paging ends, and when a peer was last heard. *)
From Coq Require Import Permutation.
From Verif Require Import Prelude Table Sco Bredr BredrBase BredrInv BredrConn BredrSpec BredrRefine BredrCount BredrTime.
From Verif Require Handles HandlesProofs.
Import Handles(get_unused_handle, kAclRangeStart, kAclRangeEnd, kScoRangeStart, kScoRangeEnd).
Open Scope N_scope.

(** The page timer and the page are left alone, or the page ends *)
Definition pag (s s' : bredr) : Prop := page_timeout s' = page_timeout s /\ (page s' = page s \/ page s' = None).
Lemma pag_refl : forall s, pag s s.
Proof. intros s. split; auto. Qed.
Lemma pag_trans : forall a b c, pag a b -> pag b c -> pag a c.
Proof. intros a b c (A1 & A2) (B1 & B2). split; [congruence|]. destruct B2 as [->|B2]; auto. Qed.
Lemma pag_same : forall s0 s s', page s' = page s -> page_timeout s' = page_timeout s -> pag s0 s -> pag s0 s'.
Proof. intros s0 s s' E1 E2 (A1 & A2). split; [congruence|]. now rewrite E1. Qed.
Lemma pag_none : forall s0 s, pag s0 s -> pag s0 (with_page None s).
Proof. intros s0 s (A & _). split; fields; auto. Qed.
Lemma pag_stop_stream : forall c s0 s, pag s0 s -> pag s0 (stop_stream c s).
Proof. intros c s0 s A. unfold stop_stream. destruct (sco_stream c); auto. Qed.
Lemma pag_close_sco : forall h s0 s, pag s0 s -> pag s0 (close_sco h s).
Proof.
  intros h s0 s A. unfold close_sco. destruct (lookup (scos s) h) as [c|]; auto. cbv zeta.
  apply (pag_same s0 (stop_stream c s)); [reflexivity..|]. now apply pag_stop_stream.
Qed.
Lemma pag_cancel_sco : forall order a s0 s, pag s0 s -> pag s0 (cancel_sco order a s).
Proof. intros order a s0 s A. unfold cancel_sco. destruct (sco_of order a s) as [[h c]|]; auto. Qed.
Lemma pag_tell_disconnection : forall now h r s0 s, pag s0 s -> pag s0 (tell_disconnection now h r s).
Proof. intros now h r s0 s A. unfold tell_disconnection. destruct (unmasked s 5); auto. Qed.
Ltac pag_step :=
  match goal with
  | |- pag ?x ?x => apply pag_refl
  | |- pag _ (with_page None _) => apply pag_none
  | H : pag ?x ?y |- pag ?x ?y => exact H
  | |- pag ?x (schedule _ _ ?y) => apply (pag_same x y); [reflexivity..|]
  | |- pag ?x (transmit _ _ ?y) => apply (pag_same x y); [reflexivity..|]
  | |- pag ?x (tell _ _ ?y) => apply (pag_same x y); [reflexivity..|]
  | |- pag ?x (sco_answer _ _ _ _ ?y) => apply (pag_same x y); [reflexivity..|]
  | |- pag ?x (tell_disconnection _ _ _ ?y) => apply pag_tell_disconnection
  | |- pag ?x (close_sco _ _) => apply pag_close_sco
  | |- pag ?x (cancel_sco _ _ _) => apply pag_cancel_sco
  | |- pag ?x (with_acls _ ?y) => apply (pag_same x y); [reflexivity..|]
  | |- pag ?x (with_last_acl _ ?y) => apply (pag_same x y); [reflexivity..|]
  | |- pag ?x (with_scos _ ?y) => apply (pag_same x y); [reflexivity..|]
  | |- pag ?x (with_last_sco _ ?y) => apply (pag_same x y); [reflexivity..|]
  | |- pag ?x (with_links _ ?y) => apply (pag_same x y); [reflexivity..|]
  | |- pag ?x (with_queue _ ?y) => apply (pag_same x y); [reflexivity..|]
  | |- pag ?x (with_page_scan _ ?y) => apply (pag_same x y); [reflexivity..|]
  | |- pag ?x (with_inquiry _ ?y) => apply (pag_same x y); [reflexivity..|]
  | |- pag ?x (if ?b then _ else _) => destruct b
  | |- pag ?x (fst (if ?b then _ else _)) => destruct b
  | |- pag ?x (snd (if ?b then _ else _)) => destruct b
  | |- pag ?x (snd (match ?b with None => _ | Some _ => _ end)) => destruct b
  | |- pag ?x (fst (match ?b with None => _ | Some _ => _ end)) => destruct b
  | |- pag ?x (match ?b with None => _ | Some _ => _ end) => destruct b
  | |- pag ?x (let (_, _) := ?b in _) => destruct b
  end.
Ltac pag_tac := cbv zeta; cbn [fst snd]; repeat (pag_step; cbv zeta; cbn [fst snd]).

Section WithOrder.
Variable order : table sco_link -> table sco_link.
Variable cfg : config.
Hypothesis any_order : forall t, Permutation (order t) t.

Lemma pag_close_acl : forall h s0 s s', pag s0 s -> close_acl order h s = Ok s' -> pag s0 s'.
Proof.
  intros h s0 s s' A. unfold close_acl. destruct (lookup (acls s) h) as [c|]; [|intros [= <-]; pag_tac].
  destruct (sco_of order (acl_peer c) s); [discriminate|]. intros [= <-]. pag_tac.
Qed.
Lemma pag_disconnect : forall now h r r' s st s', disconnect order now h r r' s = Ok (st, s') -> pag s s'.
Proof.
  intros now h r r' s st s'. unfold disconnect. destruct (lookup (scos s) h) as [c|].
  - intros [= <- <-]. pag_tac.
  - destruct (lookup (acls s) h) as [c|]; [|intros [= <- <-]; pag_tac]. intros H. unbind H. injection H as <- <-.
    apply remove_link_effect in E0. destruct E0 as (_ & ->). pag_tac. eapply pag_close_acl; [|eassumption]. pag_tac.
Qed.
Lemma pag_check_link : forall now h s s', check_link order now h s = Ok s' -> pag s s'.
Proof.
  intros now h s s'. unfold check_link. destruct (lookup (acls s) h) as [c|]; [|intros [= <-]; pag_tac].
  destruct (_ <? _); [|destruct (_ <? _)].
  - intros H. unbind H. injection H as <-. eapply pag_disconnect; eassumption.
  - intros [= <-]. pag_tac.
  - intros [= <-]. pag_tac.
Qed.
Lemma pag_create_acl : forall now a r p s h s', create_acl now a r p s = Ok (h, s') -> pag s s'.
Proof. intros now a r p s h s'. unfold create_acl. destruct (get_unused_handle _ _ _ _) as [[h' l]|]; [|discriminate]. intros [= <- <-]. pag_tac. Qed.
Lemma pag_open_stream : forall now h s0 s s', pag s0 s -> open_stream order now h s = Ok s' -> pag s0 s'.
Proof.
  intros now h s0 s s' A. unfold open_stream. destruct (lookup (scos s) h) as [c|]; [|intros [= <-]; pag_tac].
  destruct (sco_stream c); [discriminate|]. destruct (sco_spoofed c); [|intros [= <-]; pag_tac].
  destruct (sco_of order (sco_peer c) s) as [[h' c']|]; [|discriminate]. unfold start_stream. intros [= <-]. pag_tac.
Qed.
Lemma pag_accept_negotiated : forall now h c p s l s', accept_negotiated order now h c p s = Ok (l, s') -> pag s s'.
Proof.
  intros now h c p s l s'. unfold accept_negotiated. destruct (negotiate _ _ _) as [k|]; [|intros [= <- <-]; pag_tac].
  intros H. unbind H. injection H as <- <-. eapply pag_open_stream; [|exact E]. pag_tac.
Qed.
Lemma pag_create_sco : forall a p st sp leg s h s', create_sco a p st sp leg s = Ok (h, s') -> pag s s'.
Proof.
  intros a p st sp leg s h s'. unfold create_sco. destruct (get_unused_handle _ _ _ _) as [[h' l]|]; [|discriminate]. intros [= <- <-]. pag_tac.
Qed.
Lemma pag_setup_sync : forall now h p sp leg s st s', setup_sync order now h p sp leg s = Ok (st, s') -> pag s s'.
Proof.
  intros now h p sp leg s st s'. unfold setup_sync. destruct (lookup (acls s) h) as [c|]; [|intros [= <- <-]; pag_tac].
  destruct (has_pending_sco order (acl_peer c) s); [intros [= <- <-]; pag_tac|]. intros H. unbind H. injection H as <- <-.
  apply pag_create_sco in E. pag_tac.
Qed.
Lemma pag_accept_sync : forall now a p s st s', accept_sync order now a p s = Ok (st, s') -> pag s s'.
Proof.
  intros now a p s st s'. unfold accept_sync. destruct (sco_of order a s) as [[h c]|]; [|intros [= <- <-]; pag_tac].
  destruct (is_pending c); [|intros [= <- <-]; pag_tac]. intros H. unbind H. injection H as <- <-.
  apply pag_accept_negotiated in E. destruct o; pag_tac.
Qed.
Lemma pag_accept_connection : forall now a try s st s', accept_connection order now a try s = Ok (st, s') -> pag s s'.
Proof.
  intros now a try s st s'. unfold accept_connection. destruct (paged_by a s).
  - destruct (has_acl_with a s); [intros [= <- <-]; pag_tac|]. intros H. unbind H. injection H as <- <-.
    apply pag_create_acl in E. apply pag_check_link in E0. apply add_link_effect in E1. destruct E1 as (_ & ->).
    pose proof (pag_trans _ _ _ E E0) as A. pag_tac.
  - destruct (sco_of order a s) as [[h c]|]; [|intros [= <- <-]; pag_tac]. destruct (is_pending c); [|intros [= <- <-]; pag_tac].
    intros H. unbind H. injection H as <- <-. apply pag_accept_negotiated in E. destruct o; pag_tac.
Qed.

Definition keeps_page (c : command) : bool :=
  match c with CreateConnection _ _ | WritePageTimeout _ | Reset => false | _ => true end.
Lemma pag_command : forall now s c st s' out, keeps_page c = true -> run_command order cfg now s c = Ok (st, s', out) -> pag s s'.
Proof.
  intros now s c st s' out K H. destruct c; try discriminate K; cbn [run_command] in H; unfold quiet in H;
    try (injection H as <- <- <-; cbn [fst snd]);
    try (unbind H; injection H as <- <- <-; cbn [fst snd]);
    try (apply (pag_same s s); [reflexivity..|apply pag_refl]).
  - unfold start_inquiry. pag_tac.
  - unfold cancel_inquiry. pag_tac.
  - unfold cancel_connection. pag_tac.
  - eapply pag_disconnect; eassumption.
  - eapply pag_accept_connection; eassumption.
  - unfold reject_connection. pag_tac.
  - unfold change_packet_type. pag_tac.
  - unfold ask_peer. destruct (lookup (acls s) h); pag_tac.
  - unfold ask_peer. destruct (lookup (acls s) h); pag_tac.
  - unfold ask_peer. destruct (lookup (acls s) h); pag_tac.
  - unfold ask_peer. destruct (lookup (acls s) h); pag_tac.
  - eapply pag_setup_sync; eassumption.
  - eapply pag_setup_sync; eassumption.
  - eapply pag_accept_sync; eassumption.
  - unfold reject_sync. pag_tac.
  - destruct (enhanced_ok p e); [|injection H as <- <- <-; pag_tac]. unbind H. injection H as <- <- <-. eapply pag_setup_sync; eassumption.
  - destruct (enhanced_ok p e); [|injection H as <- <- <-; pag_tac]. unbind H. injection H as <- <- <-. eapply pag_accept_sync; eassumption.
  - unfold qos_setup. pag_tac.
  - destruct (lookup (acls s) h); injection H as <- <- <-; pag_tac.
  - unfold switch_role. destruct (acl_of a s) as [[h c]|]; pag_tac.
  - unfold write_link_policy. destruct (lookup (acls s) h) as [c|]; pag_tac.
  - destruct (7 <? n); injection H as <- <- <-; [pag_tac|]. apply (pag_same s s); [reflexivity..|apply pag_refl].
Qed.

Lemma pag_heard : forall now a s, pag s (heard_from now a s).
Proof. intros now a s. unfold heard_from. destruct (acl_of a s) as [[h c]|]; pag_tac. Qed.
Lemma pag_dispatch : forall now rssi p s s' out, core s -> dispatch order cfg now rssi p s = Ok (s', out) -> pag s s'.
Proof.
  intros now rssi p s s' out C H. unfold dispatch in H. destruct (content p); unfold silent, answering in H;
    try (injection H as <- <-); try (pag_tac; fail).
  - unbind H. injection H as <- <-. apply bye_effect in E; auto. destruct E as [(_ & ->)|(h & c & _ & _ & _ & _ & ->)]; pag_tac.
  - unfold receive_inquiry. pag_tac.
  - injection H as H. unfold receive_page in H. destruct (negb (page_scan_enable s)); [injection H as <- <-; pag_tac|].
    destruct (negb _); [injection H as <- <-; pag_tac|]. destruct (has_acl_with _ s); [injection H as <- <-; pag_tac|]. destruct (page_scan s); injection H as <- <-; pag_tac.
  - unfold receive_page_response in H. destruct (paging (source p) s); [|injection H as <- <-; pag_tac]. unbind H. injection H as <- <-.
    apply pag_create_acl in E. apply pag_check_link in E0. apply add_link_effect in E1. destruct E1 as (_ & ->).
    pose proof (pag_trans _ _ _ E E0) as A. pag_tac.
  - injection H as H. unfold receive_page_reject in H. destruct (paging (source p) s); injection H as <- <-; pag_tac.
  - unbind H. injection H as <- <-. unfold receive_extended_request in E. destruct (get_features cfg s page); [|discriminate]. injection E as <-. pag_tac.
  - unfold receive_sco_request in H. destruct (has_pending_sco order (source p) s); [injection H as <- <-; pag_tac|].
    unbind H. injection H as <- <-. eapply pag_create_sco; eassumption.
  - unfold receive_sco_response in H. destruct (sco_of order (source p) s) as [[h c]|]; [|injection H as <- <-; pag_tac].
    destruct (st =? SUCCESS).
    + unbind H. injection H as <- <-. unfold accept_given in E. eapply pag_open_stream; [|exact E]. pag_tac.
    + no_stream H. injection H as <- <-. pag_tac.
  - unfold receive_sco_bye. destruct (sco_of order (source p) s) as [[h c]|]; pag_tac.
  - unfold receive_switch_request. destruct (acl_of (source p) s) as [[h c]|]; pag_tac.
  - unfold receive_switch_response. destruct (acl_of (source p) s) as [[h c]|]; pag_tac.
Qed.
Lemma pag_run_tasks : forall now limit fuel s s' out, run_tasks order now limit fuel s = Ok (s', out) -> pag s s'.
Proof.
  intros now limit. induction fuel as [|fuel IH]; cbn [run_tasks]; intros s s' out H; [injection H as <- <-; apply pag_refl|].
  destruct (queue s) as [|t q]; [injection H as <- <-; apply pag_refl|]. destruct (_ && _); [|injection H as <- <-; apply pag_refl].
  unbind H. injection H as <- <-. eapply pag_trans; [|eapply IH; eassumption].
  assert (P : pag s (with_queue q s)) by (split; auto). eapply pag_trans; [exact P|].
  unfold run_job in E. destruct (what_to_do t); try (injection E as <- <-; pag_tac; fail).
  - unfold answering in E. unbind E. injection E as <- <-. eapply pag_check_link; eassumption.
  - unfold silent in E. injection E as <- <-. pag_tac. unfold send_sco. pag_tac.
Qed.

(** After a tick the page has not timed out *)
Lemma tick_page : forall now s s' out, tick order now s = Ok (s', out) -> page_timeout s' = page_timeout s /\
  forall p, page s' = Some p -> now < page_deadline p /\ exists p0, page s = Some p0 /\ page_deadline p = page_deadline p0.
Proof.
  intros now s s' out H. unfold tick in H. unbind H. injection H as <- <-. destruct (pag_run_tasks _ _ _ _ _ _ E) as (T & P).
  assert (I : pag b0 b1). { unfold do_inquiry in E1. destruct (inquiry b0) as [i|]; [|injection E1 as <- <-; pag_tac].
    destruct (_ <=? _); [injection E1 as <- <-; pag_tac|]. destruct (_ <=? _); injection E1 as <- <-; pag_tac. }
  destruct I as (I1 & I2). unfold do_paging in E0. destruct (page b) as [p0|] eqn:EP.
  - destruct P as [P|P]; [|discriminate]. destruct (page_deadline p0 <=? now) eqn:D.
    + injection E0 as <- <-. split; [rewrite I1; exact T|]. intros p G. destruct I2 as [I2|I2]; rewrite I2 in G; discriminate G.
    + apply N.leb_gt in D. destruct (_ && _); injection E0 as <- <-; (split; [rewrite I1; exact T|]); intros p G; (destruct I2 as [I2|I2]; rewrite I2 in G; [|discriminate G]).
      * injection G as <-. cbn [page_deadline]. split; auto. exists p0. split; auto.
      * rewrite EP in G. injection G as <-. split; auto. exists p0. split; auto.
  - injection E0 as <- <-. split; [congruence|]. intros p G. destruct I2 as [I2|I2]; congruence.
Qed.

Lemma page_step : forall now s o s' st out, core s -> step order cfg now s o = Ok (s', st, out) ->
  (page_timeout s' = page_timeout s \/ (o = Command Reset /\ page_timeout s' = 0x2000) \/ o = Command (WritePageTimeout (page_timeout s'))) /\
  (forall p, page s' = Some p -> (exists p0, page s = Some p0 /\ page_deadline p = page_deadline p0) \/
     (exists a allow, o = Command (CreateConnection a allow) /\ page_deadline p = now + page_timeout s * 625)).
Proof.
  intros now s o s' st out C H.
  assert (PAG : pag s s' -> (page_timeout s' = page_timeout s \/ (o = Command Reset /\ page_timeout s' = 0x2000) \/ o = Command (WritePageTimeout (page_timeout s'))) /\
    (forall p, page s' = Some p -> (exists p0, page s = Some p0 /\ page_deadline p = page_deadline p0) \/
     (exists a allow, o = Command (CreateConnection a allow) /\ page_deadline p = now + page_timeout s * 625))).
  { intros (A & B). split; auto. intros p G. left. exists p. split; auto. destruct B; congruence. }
  destruct o as [c|h pb bc d|h d|rssi p|]; cbn [step] in H; unbind H; try (injection H as <- <- <-).
  - destruct (keeps_page c) eqn:K; [apply PAG; eapply pag_command; eassumption|].
    destruct c; try discriminate K; cbn [run_command] in E; unfold quiet in E; injection E as <- <- <-.
    + cbn [fst snd]. unfold create_connection. destruct (page s) as [p0|] eqn:EP.
      * split; [now left|]. intros p G. left. exists p. split; auto. cbn [snd] in G. congruence.
      * destruct (has_acl_with a s); [split; [now left|]; cbn [snd]; intros p G; congruence|].
        destruct (paged_by a s); (split; [now left|]); cbn [snd]; fields; intros p G; [congruence|].
        injection G as <-. right. exists a, allow_role_switch. split; reflexivity.
    + split; [right; left; split; reflexivity|]. intros p G. discriminate G.
    + split; [right; right; reflexivity|]. fields. intros p G. left. exists p. auto.
  - apply PAG. unfold handle_acl in E. destruct (negb _); [discriminate|]. injection E as <-. pag_tac.
  - apply PAG. unfold send_sco. pag_tac.
  - apply PAG. unfold receive in E. destruct (for_me p s); [|injection E as <- <-; apply pag_refl].
    eapply pag_trans; [apply pag_heard|]. eapply pag_dispatch; [now apply core_heard|exact E].
  - destruct (tick_page _ _ _ _ E) as (A & B). split; auto. intros p G. destruct (B p G) as (_ & B'). auto.
Qed.

(** The page of a history was started by a Create Connection, at most the page timeout ago *)
Lemma page_history : forall M h s, history order cfg h s -> 0x2000 <= M -> (forall e n, In e h -> what e = Command (WritePageTimeout n) -> n <= M) ->
  page_timeout s <= M /\
  forall p, page s = Some p -> exists e a allow, In e h /\ what e = Command (CreateConnection a allow) /\ page_deadline p <= at_time e + M * 625.
Proof.
  intros M h s H LM. induction H as [a|h s now o s' st out H IH E]; intros W.
  - split; [exact LM|]. discriminate.
  - destruct IH as (T & P); [intros e n I; apply W; now right|]. destruct (page_step _ _ _ _ _ _ (core_history order cfg any_order _ _ H) E) as (A & B). split.
    + destruct A as [->|[(_ & ->)|A]]; auto. apply (W (Entry now o st out)); [now left|exact A].
    + intros p G. destruct (B p G) as [(p0 & G' & D)|(a & allow & EO & D)].
      * destruct (P p0 G') as (e & a & allow & I & X & L). exists e, a, allow. split; [now right|]. split; auto. lia.
      * exists (Entry now o st out), a, allow. split; [now left|]. split; [exact EO|]. cbn [at_time]. rewrite D. nia.
Qed.

(** No page outlives the page timeout *)
Theorem paging_ends : forall M h s now st out, history order cfg (Entry now Tick st out :: h) s -> 0x2000 <= M ->
  (forall e n, In e h -> what e = Command (WritePageTimeout n) -> n <= M) ->
  (forall e a allow, In e h -> what e = Command (CreateConnection a allow) -> at_time e + M * 625 <= now) -> page s = None.
Proof.
  intros M h s now st out H LM W CR. inversion H as [|h0 s0 n o s' st' out' H0 E]; subst.
  cbn [step] in E. unbind E. injection E as <- <- <-. destruct (tick_page _ _ _ _ E0) as (_ & B).
  destruct (page b) as [p|] eqn:EP; auto. exfalso. destruct (B p eq_refl) as (L & p0 & G & D).
  destruct (page_history M _ _ H0 LM W) as (_ & P). destruct (P p0 G) as (e & a & allow & I & X & LE). specialize (CR e a allow I X). lia.
Qed.

(** Every Create Connection has been answered exactly once when the page timeout is over *)
Theorem create_answered_once : forall M a h s now st out, history order cfg (Entry now Tick st out :: h) s -> timely (Entry now Tick st out :: h) -> 0x2000 <= M ->
  (forall e n, In e h -> what e = Command (WritePageTimeout n) -> n <= M) ->
  (forall e a allow, In e h -> what e = Command (CreateConnection a allow) -> at_time e + M * 625 <= now) ->
  (forall e, In e h -> audible (what e) /\ what e <> Command Reset /\ ~ answers a (what e)) ->
  completions a (Entry now Tick st out :: h) = creates a (Entry now Tick st out :: h).
Proof.
  intros M a h s now st out H T LM W CR P.
  rewrite <- (created_answered order cfg any_order a _ _ H).
  - pose proof (paging_ends M _ _ _ _ _ H LM W CR) as NP. unfold paging. rewrite NP.
    destruct (tick_leaves order cfg any_order _ _ _ _ _ H T) as (Q & _).
    assert (Z : scheduled_completions a s = 0%Z).
    { unfold scheduled_completions, to_tell. clear - Q. induction (queue s) as [|t q IH]; [reflexivity|].
      unfold total in *. cbn [fold_right]. rewrite IH by (intros u I; apply Q; now right).
      destruct (Q t (or_introl eq_refl)) as (QT & _). destruct (what_to_do t); try discriminate QT; try reflexivity.
      cbn [value_of_job]. destruct e; try discriminate QT. cbn. destruct (st =? SUCCESS); reflexivity. }
    lia.
  - intros e [<-|I]; [|now apply P]. cbn [what]. split; [exact Logic.I|]. split; [discriminate|]. exact (fun x => x).
Qed.
End WithOrder.
