(** The BR/EDR controller: the ACL data of the host leaves in order, exactly once. *)
From Coq Require Import Permutation.
From Verif Require Import Prelude Table Sco Bredr BredrBase BredrInv BredrConn BredrSpec BredrRefine BredrTime.
Open Scope N_scope.

Definition of_data (t : task) : bool := match data_of t with [] => false | _ => true end.
Lemma waiting_filter : forall q, flat_map data_of q = flat_map data_of (filter of_data q).
Proof.
  induction q as [|t q IH]; [reflexivity|]. cbn [filter flat_map]. unfold of_data at 1. destruct (data_of t) eqn:E; cbn [flat_map app]; rewrite IH; [reflexivity|].
  now rewrite E.
Qed.
Lemma earlier_irrefl : forall a, ~ earlier a a.
Proof. intros a. unfold earlier. rewrite before_spec. lia. Qed.
Lemma sorted_unique : forall l l', sorted l -> sorted l' -> (forall x, In x l <-> In x l') -> l = l'.
Proof.
  induction l as [|a l IH]; intros l' S S' E.
  - destruct l' as [|b l']; auto. destruct (proj2 (E b)). now left.
  - destruct l' as [|b l']; [destruct (proj1 (E a)); now left|].
    destruct S as (A & S), S' as (B & S').
    assert (a = b).
    { destruct (proj1 (E a)) as [X|X]; [now left|auto|]. destruct (proj2 (E b)) as [Y|Y]; [now left|auto|].
      elim (earlier_irrefl a). eapply before_trans; [apply A, Y|apply B, X]. }
    subst b. f_equal. apply IH; auto. intros x. split; intros I.
    + destruct (proj1 (E x)) as [X|X]; [now right|subst x; elim (earlier_irrefl a); auto|auto].
    + destruct (proj2 (E x)) as [X|X]; [now right|subst x; elim (earlier_irrefl a); auto|auto].
Qed.
Lemma sorted_filter : forall f l, sorted l -> sorted (filter f l).
Proof.
  intros f. induction l as [|a l IH]; intros S; [exact S|]. destruct S as (A & S). cbn [filter]. destruct (f a); auto.
  split; auto. intros u I. apply filter_In in I. now apply A.
Qed.

Lemma unusual_data : forall t, of_data t = true -> usual_job false (what_to_do t) = false.
Proof.
  intros t. unfold of_data, data_of. destruct (what_to_do t) as [p|e| | | |]; cbn [result_of filter about_data]; try discriminate.
  - cbn [usual_job]. destruct (is_acl p); [reflexivity|discriminate].
  - destruct e; discriminate || reflexivity.
Qed.
Lemma data_prompt : forall t, of_data t = true -> prompt (what_to_do t) = true.
Proof. intros t. unfold of_data, data_of. destruct (what_to_do t); cbn; auto; discriminate. Qed.

(** A step that schedules no data *)
Lemma waiting_ext : forall ho now s s', core s -> core s' -> ext ho false now s s' -> waiting s' = waiting s.
Proof.
  intros ho now s s' C C' A. unfold waiting. rewrite waiting_filter, (waiting_filter (queue s)). f_equal.
  apply sorted_unique; [apply sorted_filter, gq_sorted, core_queue, C'|apply sorted_filter, gq_sorted, core_queue, C|].
  intros t. rewrite !filter_In. split; intros (I & D); (split; [|exact D]).
  - destruct (ext_kind _ _ _ _ _ A t I) as [J|J]; auto. rewrite unusual_data in J by exact D. discriminate.
  - apply (ext_keep _ _ _ _ _ A); auto. apply data_prompt in D. now destruct (what_to_do t).
Qed.

Lemma flat_none : forall (f : task -> list output) l, (forall v, In v l -> f v = []) -> flat_map f l = [].
Proof. intros f. induction l as [|v l IH]; intros H; auto. cbn [flat_map]. rewrite H by now left. apply IH. intros u I. apply H. now right. Qed.
Lemma flat_insert : forall (f : task -> list output) t q, sorted q -> (forall u, In u q -> f u <> [] -> earlier u t) ->
  flat_map f (insert t q) = flat_map f q ++ f t.
Proof.
  intros f t. induction q as [|u q IH]; intros S H; cbn [insert flat_map]; [now rewrite app_nil_r|]. destruct S as (A & S).
  destruct (before t u) eqn:B.
  - cbn [flat_map].
    assert (Z : forall v, In v (u :: q) -> f v = []).
    { intros v I. destruct (f v) eqn:F; auto. exfalso. elim (earlier_irrefl t).
      assert (earlier t v) by (destruct I as [<-|I]; [exact B|eapply before_trans; [exact B|now apply A]]).
      eapply before_trans; [eassumption|]. apply H; auto. congruence. }
    rewrite (Z u) by now left. rewrite flat_none by (intros v I; apply Z; now right). now rewrite app_nil_r.
  - cbn [flat_map]. rewrite IH; auto; [now rewrite app_assoc|]. intros v I. apply H. now right.
Qed.
Lemma insert_waiting : forall now j s, core s -> punctual now s -> waiting (schedule now j s) = waiting s ++ data_of (Task now (next_id s) j).
Proof.
  intros now j s C P. unfold waiting, schedule. cbn [queue with_queue with_next_id]. apply flat_insert; [apply gq_sorted, core_queue, C|].
  intros u I F. unfold earlier. rewrite before_spec. cbn [due ident]. pose proof (gq_fresh _ (core_queue s C) u I).
  assert (D : due u <= now) by (apply P; auto; apply data_prompt; unfold of_data; now destruct (data_of u)). lia.
Qed.

Section WithOrder.
Variable order : table sco_link -> table sco_link.
Variable cfg : config.
Hypothesis any_order : forall t, Permutation (order t) t.

Definition no_data (out : list output) : Prop := filter about_data out = [].
Lemma said_no_data : forall s c e, scheduled_event e = false \/ (forall h n, e <> CompletedPackets h n) -> no_data (said s c e).
Proof.
  intros s c e H. unfold no_data, said. destruct (unmasked s c); auto. cbn. destruct e; auto. destruct H as [H|H]; [discriminate|]. now elim (H h n).
Qed.
Lemma dispatch_no_data : forall now rssi p s s' out, dispatch order cfg now rssi p s = Ok (s', out) -> no_data out.
Proof.
  intros now rssi p s s' out H. unfold dispatch in H.
  assert (SAID : forall s c e, (forall h n, e <> CompletedPackets h n) -> no_data (said s c e)) by (intros; apply said_no_data; auto).
  assert (ABOUT : forall a c e, (forall h k n, e h <> CompletedPackets k n) -> no_data (receive_about a c e s)).
  { intros a c e X. unfold receive_about. destruct (acl_of a s) as [[h d]|]; [apply SAID, X|reflexivity]. }
  destruct (content p); unfold silent, answering in H;
    try (injection H as <- <-; reflexivity);
    try (injection H as <- <-; apply SAID; discriminate);
    try (injection H as <- <-; apply ABOUT; discriminate).
  - injection H as <- <-. unfold receive_acl. destruct (acl_of _ _) as [[h c]|]; reflexivity.
  - injection H as <- <-. unfold receive_voice. destruct (sco_of _ _ _) as [[h c]|]; reflexivity.
  - unbind H. now injection H as <- <-.
  - injection H as <- <-. unfold receive_inquiry_answer.
    destruct (mode =? 0); [apply SAID; discriminate|]. destruct (mode =? 1); [apply SAID; discriminate|]. destruct (mode =? 2); reflexivity.
  - injection H as H. unfold receive_page in H. destruct (negb (page_scan_enable s)); [now injection H as <- <-|].
    destruct (negb _); [now injection H as <- <-|]. destruct (has_acl_with _ s); [now injection H as <- <-|]. destruct (page_scan s); now injection H as <- <-.
  - unfold receive_page_response in H. destruct (paging (source p) s); [|now injection H as <- <-]. unbind H. injection H as <- <-.
    unfold no_data. rewrite filter_app. match goal with |- _ ++ ?x = [] => assert (X : x = []) by (apply SAID; discriminate); rewrite X end.
    rewrite app_nil_r. match goal with |- context [if role_eqb ?x ?y then _ else _] => destruct (role_eqb x y) end; [apply SAID; discriminate|reflexivity].
  - injection H as H. unfold receive_page_reject in H. destruct (paging (source p) s); injection H as <- <-; [apply SAID; discriminate|reflexivity].
  - unbind H. now injection H as <- <-.
  - unfold receive_sco_request in H. destruct (has_pending_sco order (source p) s); [now injection H as <- <-|]. unbind H. now injection H as <- <-.
  - unfold receive_sco_response in H. destruct (sco_of order (source p) s) as [[h c]|]; [|now injection H as <- <-]. destruct (st =? SUCCESS).
    + unbind H. injection H as <- <-. now destruct (sco_legacy c).
    + no_stream H. injection H as <- <-. now destruct (sco_legacy c).
Qed.
Lemma command_no_data : forall now s c st s' out, run_command order cfg now s c = Ok (st, s', out) -> no_data out.
Proof.
  intros now s c st s' out H. destruct c; cbn [run_command] in H; unfold quiet in H;
    try (injection H as <- <- <-; reflexivity);
    try (unbind H; injection H as <- <- <-; reflexivity).
  - destruct (enhanced_ok p e); [|now injection H as <- <- <-]. unbind H. now injection H as <- <- <-.
  - destruct (enhanced_ok p e); [|now injection H as <- <- <-]. unbind H. now injection H as <- <- <-.
  - destruct (lookup (acls s) h); now injection H as <- <- <-.
  - destruct (7 <? n); now injection H as <- <- <-.
Qed.

Lemma check_link_ext_none : forall now h s s', core s -> check_link order now h s = Ok s' -> ext (fun _ => False) false now s s'.
Proof. intros. eapply ext_check_link; eassumption. Qed.

Lemma run_job_data : forall now t q s s' out, core s -> queue s = t :: q -> run_job order now t (with_queue q s) = Ok (s', out) ->
  filter about_data out ++ waiting s' = waiting s.
Proof.
  intros now t q s s' out C EQ H. pose proof (core_pop t q s C EQ) as CP. pose proof (core_run_job order _ _ _ _ _ _ C EQ H) as C'.
  set (p := with_queue q s) in *.
  assert (W : waiting s = data_of t ++ waiting p) by (unfold waiting; rewrite EQ; reflexivity). rewrite W. clear W.
  assert (EXT : forall x, core x -> ext (fun _ => False) false now p x -> waiting x = waiting p) by (intros; eapply waiting_ext; eassumption).
  unfold run_job in H. destruct (what_to_do t) eqn:J; unfold data_of; rewrite J; cbn [result_of].
  - injection H as <- <-. reflexivity.
  - injection H as <- <-. reflexivity.
  - injection H as <- <-. cbn [filter]. rewrite said_no_data; [reflexivity|]. now left.
  - injection H as <- <-. rewrite said_no_data; [|right; discriminate]. cbn [filter app]. apply EXT; [exact C'|]. apply ext_schedule; [lia|reflexivity|reflexivity|apply ext_refl].
  - unfold answering in H. unbind H. injection H as <- <-. cbn [filter app]. apply EXT; auto. now apply check_link_ext_none with h.
  - unfold silent in H. injection H as <- <-. cbn [filter app].
    set (x := send_sco now h [0; 0; 0; 0; 0] p) in *.
    assert (A : ext (fun _ => False) false now p x) by (unfold x, send_sco; destruct (lookup (scos p) h); [apply ext_schedule; [lia|reflexivity|reflexivity|]|]; apply ext_refl).
    unfold waiting. rewrite waiting_filter, (waiting_filter (queue p)). f_equal.
    apply sorted_unique; [apply sorted_filter, gq_sorted, core_queue, C'|apply sorted_filter, gq_sorted, core_queue, CP|].
    intros u. rewrite !filter_In. cbn [queue with_queue]. rewrite in_insert. split; intros (I & D); (split; [|exact D]).
    + destruct I as [->|I]; [discriminate D|]. destruct (ext_kind _ _ _ _ _ A u I) as [I'|I']; auto. rewrite unusual_data in I' by exact D. discriminate.
    + right. apply (ext_keep _ _ _ _ _ A); auto. apply data_prompt in D. now destruct (what_to_do u).
Qed.
Lemma run_tasks_data : forall now limit fuel s s' out, core s -> run_tasks order now limit fuel s = Ok (s', out) ->
  filter about_data out ++ waiting s' = waiting s.
Proof.
  intros now limit. induction fuel as [|fuel IH]; cbn [run_tasks]; intros s s' out C H; [now injection H as <- <-|].
  destruct (queue s) as [|t q] eqn:EQ; [now injection H as <- <-|]. destruct (_ && _); [|now injection H as <- <-]. unbind H. injection H as <- <-.
  pose proof (core_run_job order _ _ _ _ _ _ C EQ E) as C'. rewrite filter_app, <- app_assoc. rewrite (IH _ _ _ C' E0). eapply run_job_data; eassumption.
Qed.

(** What has been sent and what is waiting is what was waiting and what the host gives *)
Theorem data_step : forall last now s o s' st out, core s -> last <= now -> punctual last s -> step order cfg now s o = Ok (s', st, out) ->
  filter about_data out ++ waiting s' = waiting s ++ accepted o s.
Proof.
  intros last now s o s' st out C L P H. pose proof (core_step order cfg any_order _ _ _ _ _ _ C H) as C'.
  assert (EXT : o <> Tick -> (forall h b bc d, o <> AclFromHost h b bc d) -> no_data out -> accepted o s = [] -> filter about_data out ++ waiting s' = waiting s ++ accepted o s).
  { intros NT NA ND ->. rewrite ND, app_nil_r. cbn [app].
    assert (A : ext (fun _ => True) false now s s').
    { eapply ext_step; try eassumption; auto. intros h b bc d ->. now elim (NA h b bc d). }
    eapply waiting_ext; eassumption. }
  destruct o as [c|h b bc d|h d|rssi p|]; cbn [step] in H; unbind H.
  - injection H as <- <- <-. apply EXT; try discriminate; auto. eapply command_no_data; eassumption.
  - injection H as <- <- <-. cbn [accepted filter app]. unfold handle_acl in E. destruct (negb _); [discriminate|]. injection E as <-.
    assert (PN : punctual now s) by (intros t I Q; specialize (P t I Q); lia).
    destruct (lookup (acls s) h) as [c|].
    + unfold tell. rewrite insert_waiting; [|now apply core_schedule|].
      * unfold transmit. rewrite insert_waiting by auto. rewrite <- app_assoc. reflexivity.
      * intros t I Q. cbn [transmit schedule queue with_queue with_next_id] in I. apply in_insert in I. destruct I as [->|I]; [cbn; lia|auto].
    + unfold tell. rewrite insert_waiting by auto. reflexivity.
  - injection H as <- <- <-. apply EXT; try discriminate; auto. reflexivity.
  - injection H as <- <- <-. apply EXT; try discriminate; auto. unfold receive in E. destruct (for_me p s); [|now injection E as <- <-].
    eapply dispatch_no_data; eassumption.
  - injection H as <- <- <-. cbn [accepted]. rewrite app_nil_r. unfold tick in E. unbind E. injection E as <- <-.
    pose proof (core_run_tasks order _ _ _ _ _ _ C E0) as C1.
    assert (A1 : ext (fun _ => False) false now b0 b1) by (pose proof (ext_do_paging (fun _ => False) false now b0) as X; now rewrite E1 in X).
    assert (A2 : ext (fun _ => False) false now b1 b2) by (pose proof (ext_do_inquiry (fun _ => False) false now b1) as X; now rewrite E2 in X).
    assert (N1 : no_data l1). { unfold do_paging in E1. destruct (page b0); [|now injection E1 as <- <-]. destruct (_ <=? _); [now injection E1 as <- <-|]. destruct (_ && _); now injection E1 as <- <-. }
    assert (N2 : no_data l2). { unfold do_inquiry in E2. destruct (inquiry b1); [|now injection E2 as <- <-]. destruct (_ <=? _); [injection E2 as <- <-; apply said_no_data; now left|]. destruct (_ <=? _); now injection E2 as <- <-. }
    rewrite !filter_app, N1, N2, !app_nil_r. rewrite (waiting_ext _ _ _ _ C1 C' (ext_trans _ _ _ _ _ _ A1 A2)). eapply run_tasks_data; eassumption.
Qed.

Lemma play_timely : forall ops h s h' s', play order cfg h s ops = Some (h', s') -> timely h' -> exists k, h' = k ++ h /\ timely h.
Proof.
  induction ops as [|[now o] ops IH]; cbn [play]; intros h s h' s' P T.
  - injection P as <- <-. exists []. split; auto.
  - destruct (step order cfg now s o) as [[[s1 st] out]| | |]; try discriminate. destruct (IH _ _ _ _ P T) as (k & -> & T').
    exists (k ++ [Entry now o st out]). rewrite <- app_assoc. split; auto. apply T'.
Qed.
Lemma data_play : forall ops h s h' s', history order cfg h s -> play order cfg h s ops = Some (h', s') -> timely h' ->
  data_sent h' ++ waiting s' = data_sent h ++ waiting s ++ given order cfg s ops.
Proof.
  induction ops as [|[now o] ops IH]; intros h s h' s' H P T.
  - cbn [play] in P. injection P as <- <-. cbn [given]. now rewrite app_nil_r.
  - cbn [play given] in *. destruct (step order cfg now s o) as [[[s1 st] out]| | |] eqn:E; try discriminate.
    pose proof (next_step order cfg h s now o s1 st out H E) as H1. rewrite (IH _ _ _ _ H1 P T).
    destruct (play_timely _ _ _ _ _ P T) as (k & _ & (T1 & T2)).
    destruct (timed_history order cfg any_order _ _ H T2) as (_ & PU).
    assert (L : latest h <= now). { destruct h as [|e h0]; cbn [latest]; [lia|]. apply (T1 e). now left. }
    pose proof (data_step _ _ _ _ _ _ _ (core_history order cfg any_order _ _ H) L PU E) as D.
    unfold data_sent. cbn [rev]. rewrite flat_map_app. cbn [flat_map sent]. rewrite app_nil_r, <- !app_assoc. f_equal.
    rewrite !app_assoc. f_equal. exact D.
Qed.
(** From power on: what was sent, followed by what is waiting, is what the host gave *)
Theorem data_fifo : forall a ops h s, play order cfg [] (new_bredr a) ops = Some (h, s) -> timely h ->
  data_sent h ++ waiting s = given order cfg (new_bredr a) ops.
Proof. intros a ops h s P T. rewrite (data_play ops [] (new_bredr a) h s); auto. apply power_on. Qed.
(** Nothing waits after a tick *)
Theorem data_flushed : forall h s now st out, history order cfg (Entry now Tick st out :: h) s -> timely (Entry now Tick st out :: h) -> waiting s = [].
Proof.
  intros h s now st out H T. destruct (tick_leaves order cfg any_order _ _ _ _ _ H T) as (Q & _).
  apply flat_none. intros t I. destruct (Q t I) as (QT & _). unfold data_of. destruct (what_to_do t) as [p|e| | | |]; try reflexivity.
  - cbn [quiet_job] in QT. cbn. now destruct (is_acl p).
  - destruct e; try discriminate QT. reflexivity.
Qed.
End WithOrder.
