(** Data over LE links: the task queue keeps the order of what is scheduled; ACL data,
    isochronous data. *)
From Coq Require Import Sorted.
From Verif Require Import Prelude Table LeData LeDataSpec.
From Verif Require Iso.
Open Scope N_scope.

(** * The queue *)

Definition says (q : list task) : list output :=
  flat_map (fun t => match todo t with Say o => [o] | CheckLink _ => [] end) q.
Definition waiting (s : state) : list output := says (queue s).

Record inv (now : N) (s : state) : Prop := Inv {
  inv_sorted : StronglySorted (fun t u => before t u = true) (queue s);
  inv_ids : Forall (fun t => ident t < next_id s) (queue s);
  inv_prompt : Forall (fun t => match todo t with Say _ => due t <= now | CheckLink _ => True end) (queue s) }.

Lemma says_app : forall a b, says (a ++ b) = says a ++ says b.
Proof. intros. apply flat_map_app. Qed.

Lemma in_insert : forall t u q, In u (insert t q) <-> u = t \/ In u q.
Proof.
  intros t u. induction q as [|v q IH]; cbn; [intuition|]. destruct (before t v); cbn; [intuition|]. rewrite IH. intuition.
Qed.
Lemma Forall_insert : forall (P : task -> Prop) t q, P t -> Forall P q -> Forall P (insert t q).
Proof. intros P t q A B. rewrite Forall_forall in *. intros u I. apply in_insert in I. destruct I as [->|I]; auto. Qed.

Lemma before_total : forall t u, before t u = false -> ident t <> ident u -> before u t = true.
Proof. unfold before. intros t u. destruct (N.ltb_spec (due t) (due u)), (N.eqb_spec (due t) (due u)), (N.ltb_spec (ident t) (ident u)), (N.ltb_spec (due u) (due t)), (N.eqb_spec (due u) (due t)), (N.ltb_spec (ident u) (ident t)); cbn; auto; try discriminate; lia. Qed.
Lemma before_trans : forall t u v, before t u = true -> before u v = true -> before t v = true.
Proof.
  unfold before. intros t u v A B. apply orb_true_iff in A, B. apply orb_true_iff.
  rewrite !andb_true_iff, !N.ltb_lt, !N.eqb_eq in *. lia.
Qed.

Lemma insert_sorted : forall t q, StronglySorted (fun t u => before t u = true) q -> Forall (fun u => ident u <> ident t) q ->
  StronglySorted (fun t u => before t u = true) (insert t q).
Proof.
  intros t. induction q as [|u q IH]; cbn; intros S F; [repeat constructor|].
  inversion_clear S as [|? ? S' A]. inversion_clear F as [|? ? N F']. destruct (before t u) eqn:E.
  - constructor; [now constructor|]. constructor; auto. eapply Forall_impl; [|exact A]. cbn. intros v. now apply before_trans.
  - constructor; auto. apply Forall_insert; auto. apply before_total; auto.
Qed.

Lemma says_cons : forall t q, says (t :: q) = match todo t with Say o => [o] | CheckLink _ => [] end ++ says q.
Proof. reflexivity. Qed.
Lemma says_insert_check : forall t h q, todo t = CheckLink h -> says (insert t q) = says q.
Proof.
  intros t h q E. induction q as [|u q IH]; cbn [insert]; [now rewrite says_cons, E|]. destruct (before t u).
  - now rewrite says_cons, E.
  - now rewrite !says_cons, IH.
Qed.
Lemma says_late : forall q now, Forall (fun t => match todo t with Say _ => due t <= now | CheckLink _ => True end) q ->
  Forall (fun t => now < due t) q -> says q = [].
Proof.
  intros q now. induction q as [|t q IH]; intros A B; auto. inversion_clear A as [|? ? A1 A2]. inversion_clear B as [|? ? B1 B2].
  rewrite says_cons. destruct (todo t); [lia|]. now apply IH.
Qed.
Lemma says_insert_say : forall now id o q, StronglySorted (fun t u => before t u = true) q -> Forall (fun t => ident t < id) q ->
  Forall (fun t => match todo t with Say _ => due t <= now | CheckLink _ => True end) q ->
  says (insert (Task now id (Say o)) q) = says q ++ [o].
Proof.
  intros now id o. induction q as [|u q IH]; cbn [insert]; intros S I P; auto.
  inversion_clear S as [|? ? S' A]. inversion_clear I as [|? ? I1 I2]. inversion_clear P as [|? ? P1 P2].
  destruct (before (Task now id (Say o)) u) eqn:E; rewrite !says_cons; cbn [todo].
  - assert (U : now < due u). { unfold before in E. cbn in E. apply orb_true_iff in E. rewrite andb_true_iff, !N.ltb_lt, N.eqb_eq in E. lia. }
    assert (W : says q = []).
    { apply (says_late q now P2). eapply Forall_impl; [|exact A]. cbn. intros v V. unfold before in V.
      apply orb_true_iff in V. rewrite andb_true_iff, !N.ltb_lt, N.eqb_eq in V. lia. }
    rewrite W. destruct (todo u); [lia|]. reflexivity.
  - rewrite IH; auto. now rewrite app_assoc.
Qed.

(** [adds now s s' l]: from [s] to [s'] the outputs [l] were scheduled *)
Definition adds (now : N) (s s' : state) (l : list output) : Prop :=
  inv now s -> inv now s' /\ waiting s' = waiting s ++ l.
Lemma adds_refl : forall now s, adds now s s [].
Proof. intros now s I. split; auto. now rewrite app_nil_r. Qed.
Lemma adds_trans : forall now a b c l m, adds now a b l -> adds now b c m -> adds now a c (l ++ m).
Proof. intros now a b c l m A B I. destruct (A I) as (J & E). destruct (B J) as (K & F). split; auto. now rewrite F, E, app_assoc. Qed.
Lemma adds_say : forall now o s, adds now s (schedule now (Say o) s) [o].
Proof.
  intros now o s [S I P]. split.
  - constructor; cbn [schedule queue next_id].
    + apply insert_sorted; auto. eapply Forall_impl; [|exact I]. cbn. lia.
    + apply Forall_insert; [cbn; lia|]. eapply Forall_impl; [|exact I]. cbn. lia.
    + apply Forall_insert; auto. cbn. lia.
  - unfold waiting. cbn [schedule queue]. now apply says_insert_say.
Qed.
Lemma adds_check : forall now t h s, adds now s (schedule t (CheckLink h) s) [].
Proof.
  intros now t h s [S I P]. split.
  - constructor; cbn [schedule queue next_id].
    + apply insert_sorted; auto. eapply Forall_impl; [|exact I]. cbn. lia.
    + apply Forall_insert; [cbn; lia|]. eapply Forall_impl; [|exact I]. cbn. lia.
    + apply Forall_insert; cbn; auto.
  - unfold waiting. cbn [schedule queue]. rewrite app_nil_r. eapply says_insert_check. reflexivity.
Qed.
Lemma adds_same : forall now s s', queue s' = queue s -> next_id s' = next_id s -> adds now s s' [].
Proof. intros now s s' Q N [S I P]. split; [constructor; now rewrite ?Q, ?N|]. unfold waiting. now rewrite Q, app_nil_r. Qed.

(** Outputs that are neither data nor credit *)
Definition service (o : output) : bool := negb (acl_or_credit o) && negb (is_pdu o).
Definition services (l : list output) : Prop := Forall (fun o => service o = true) l.
Lemma services_filter : forall l, services l -> filter acl_or_credit l = [] /\ filter is_pdu l = [].
Proof.
  induction l as [|o l IH]; intros F; cbn; auto. inversion_clear F as [|? ? A B]. destruct (IH B) as (-> & ->).
  unfold service in A. destruct (acl_or_credit o), (is_pdu o); try discriminate. auto.
Qed.

Lemma tell_adds : forall e now h r s, exists l, services l /\ adds now s (tell_disconnection e now h r s) l.
Proof.
  intros. unfold tell_disconnection. destruct (told e); [exists [Disconnected h r]; split; [repeat constructor|apply adds_say]|exists []; split; [constructor|apply adds_refl]].
Qed.
Lemma disconnect_adds : forall e now h a b s, exists l, services l /\ adds now s (disconnect e now h a b s) l.
Proof.
  intros. unfold disconnect. destruct (lookup (links s) h) as [c|]; [|exists []; split; [constructor|apply adds_refl]]. cbv zeta.
  destruct (tell_adds e now h b (with_links (erase (links (transmit now (Frame (own c) (peer c) (Bye a)) s)) h) (transmit now (Frame (own c) (peer c) (Bye a)) s))) as (l & S & A).
  exists ([Sent (Frame (own c) (peer c) (Bye a))] ++ [] ++ l). split; [constructor; auto|].
  eapply adds_trans; [apply adds_say|]. eapply adds_trans; [|exact A]. now apply adds_same.
Qed.
Lemma check_adds : forall e now h s, exists l, services l /\ adds now s (check_link e now h s) l.
Proof.
  intros. unfold check_link. destruct (lookup (links s) h) as [c|]; [|exists []; split; [constructor|apply adds_refl]].
  destruct (_ <? now); [apply disconnect_adds|]. destruct (_ <? now).
  - exists ([Sent (Frame (own c) (peer c) PingRequest)] ++ []). split; [repeat constructor|]. eapply adds_trans; [apply adds_say|apply adds_check].
  - exists []. split; [constructor|apply adds_check].
Qed.
Lemma link_up_adds : forall e now h a b s, exists l, services l /\ adds now s (link_up e now h a b s) l.
Proof.
  intros. unfold link_up. cbv zeta. destruct (lookup (links s) h); [apply check_adds|].
  destruct (check_adds e now h (with_links (put (links s) h (Link a b now)) s)) as (l & S & A). exists ([] ++ l). split; auto.
  eapply adds_trans; [|exact A]. now apply adds_same.
Qed.
Lemma reset_adds : forall now s, exists l, services l /\ adds now s (reset now s) l.
Proof.
  intros now s. unfold reset. cbv zeta.
  enough (H : forall cs s, exists l, services l /\ adds now s (fold_left (fun s c => transmit now (Frame (own c) (peer c) (Bye REMOTE_USER_TERMINATED)) s) cs s) l).
  { destruct (H (values (links s)) s) as (l & S & A). exists (l ++ []). split; [now rewrite app_nil_r|]. eapply adds_trans; [exact A|]. now apply adds_same. }
  induction cs as [|c cs IH]; intros s0; cbn [fold_left]; [exists []; split; [constructor|apply adds_refl]|].
  destruct (IH (transmit now (Frame (own c) (peer c) (Bye REMOTE_USER_TERMINATED)) s0)) as (l & S & A).
  exists ([Sent (Frame (own c) (peer c) (Bye REMOTE_USER_TERMINATED))] ++ l). split; [constructor; auto|]. eapply adds_trans; [apply adds_say|exact A].
Qed.
Lemma receive_adds : forall e now f s s' o, receive e now f s = (s', o) -> exists l, services l /\ adds now s s' l.
Proof.
  intros e now f s s' o. unfold receive. destruct (link_of _ _ _ s) as [h|]; [|intros [= <- _]; exists []; split; [constructor|apply adds_refl]]. cbv zeta.
  set (s1 := match lookup (links s) h with Some k => _ | None => s end).
  assert (A1 : adds now s s1 []). { unfold s1. destruct (lookup (links s) h); [now apply adds_same|apply adds_refl]. }
  destruct (about f); intros [= <- _]; try (exists []; split; [constructor|exact A1]).
  - exists ([] ++ [Sent (Frame (destination f) (source f) PingResponse)]). split; [repeat constructor|]. eapply adds_trans; [exact A1|apply adds_say].
  - destruct (tell_adds e now h reason (with_links (erase (links s1) h) s1)) as (l & S & A). exists ([] ++ [] ++ l). split; auto.
    eapply adds_trans; [exact A1|]. eapply adds_trans; [|exact A]. now apply adds_same.
Qed.
Lemma receive_outputs : forall e now f s s' o, receive e now f s = (s', o) -> filter acl_or_credit o = [] /\ filter is_pdu o = [].
Proof.
  intros e now f s s' o. unfold receive. destruct (link_of _ _ _ s) as [h|]; [|intros [= _ <-]; auto]. cbv zeta.
  destruct (about f); intros [= _ <-]; auto. unfold incoming_iso. destruct (Iso.find_cis _ _ _); auto.
  generalize (S (length data)), (lenN data mod 65536), (if lenN data <=? kMaxPayloadSize then COMPLETE else FIRST). intros fuel n0.
  revert data. induction fuel as [|fuel IH]; intros d b; [auto|]. cbn [pieces]. destruct (skipn _ d) as [|x r]; [auto|]. cbn. apply IH.
Qed.

Lemma ready_later : forall now q, ready now q ++ later now q = q.
Proof. intros now. induction q as [|t q IH]; cbn; auto. destruct (due t <=? now); cbn; auto. now rewrite IH. Qed.
Lemma ready_due : forall now q t, In t (ready now q) -> due t <= now.
Proof. intros now. induction q as [|u q IH]; cbn; [tauto|]. intros t. destruct (N.leb_spec (due u) now); cbn; [|tauto]. intros [<-|I]; auto. Qed.
Lemma later_due : forall now q, StronglySorted (fun t u => before t u = true) q -> Forall (fun t => now < due t) (later now q).
Proof.
  intros now. induction q as [|t q IH]; cbn; intros S; [constructor|]. inversion_clear S as [|? ? S' A]. destruct (N.leb_spec (due t) now); auto.
  constructor; auto. eapply Forall_impl; [|exact A]. cbn. intros u B. unfold before in B. apply orb_true_iff in B. rewrite andb_true_iff, !N.ltb_lt, N.eqb_eq in B. lia.
Qed.
Lemma sorted_app_r : forall (R : task -> task -> Prop) a b, StronglySorted R (a ++ b) -> StronglySorted R b.
Proof. intros R. induction a as [|x a IH]; cbn; intros b S; auto. inversion_clear S. auto. Qed.

Lemma run_tasks_adds : forall e now l s s' o, run_tasks e now l s = (s', o) ->
  o = says l /\ exists m, services m /\ adds now s s' m.
Proof.
  intros e now. induction l as [|t l IH]; cbn [run_tasks]; intros s s' o.
  - intros [= <- <-]. split; auto. exists []. split; [constructor|apply adds_refl].
  - cbn [says flat_map]. destruct (todo t) as [x|h].
    + destruct (run_tasks e now l s) as [s1 o1] eqn:E. intros [= <- <-]. destruct (IH _ _ _ E) as (-> & m & A). split; auto. eauto.
    + destruct (run_tasks e now l (check_link e now h s)) as [s1 o1] eqn:E. intros [= <- <-]. destruct (IH _ _ _ E) as (-> & m & S & A). split; auto.
      destruct (check_adds e now h s) as (k & S' & A'). exists (k ++ m). split; [now apply Forall_app|]. eapply adds_trans; eauto.
Qed.
Lemma later_inv : forall now s, inv now s -> inv now (with_queue (later now (queue s)) s) /\ waiting (with_queue (later now (queue s)) s) = [] /\
  says (ready now (queue s)) = waiting s.
Proof.
  intros now s [S I P]. pose proof (ready_later now (queue s)) as E. pose proof (later_due now (queue s) S) as L.
  assert (F : Forall (fun t => match todo t with Say _ => due t <= now | CheckLink _ => True end) (later now (queue s))).
  { rewrite <- E in P. now apply Forall_app in P. }
  assert (W : says (later now (queue s)) = []) by (eapply says_late; eassumption).
  split; [constructor; cbn [with_queue queue next_id]; auto|].
  - rewrite <- E in S. now apply sorted_app_r in S.
  - rewrite <- E in I. now apply Forall_app in I.
  - split; auto. unfold waiting. rewrite <- E at 2. now rewrite says_app, W, app_nil_r.
Qed.
Lemma tick_effect : forall e now s s' o, tick e now s = (s', o) -> inv now s ->
  inv now s' /\ o = waiting s /\ services (waiting s').
Proof.
  intros e now s s' o H I. unfold tick in H. destruct (run_tasks_adds _ _ _ _ _ _ H) as (-> & m & S & A).
  destruct (later_inv now s I) as (J & W & R). destruct (A J) as (K & E). split; auto. split; auto. now rewrite E, W.
Qed.

Lemma inv_later : forall now now' s, now <= now' -> inv now s -> inv now' s.
Proof. intros now now' s L [S I P]. constructor; auto. eapply Forall_impl; [|exact P]. cbn. intros t. destruct (todo t); auto. lia. Qed.
Lemma inv_initial : forall now, inv now initial.
Proof. intros. constructor; constructor. Qed.

(** * What a step schedules *)

Lemma open_lookup : forall s h, lookup (open_links s) h = match lookup (links s) h with Some c => Some (own c, peer c) | None => None end.
Proof. intros s h. unfold open_links. induction (links s) as [|[k c] m IH]; cbn; auto. destruct (k =? h); auto. Qed.

Lemma handle_acl_adds : forall e now p s s', handle_acl now p s = Some s' ->
  adds now s s' (asked (Entry now e (open_links s) (HostAcl p) [])).
Proof.
  intros e now p s s'. unfold handle_acl, asked. cbn [what known]. destruct (a_broadcast p =? 0) eqn:B; [|discriminate]. rewrite open_lookup. cbv zeta.
  destruct (lookup (links s) (a_handle p)) as [c|]; intros [= <-]; (eapply adds_trans; [|apply adds_say]); [apply adds_say|apply adds_refl].
Qed.
Lemma handle_iso_adds : forall e now p s s', handle_iso e now p s = Some s' ->
  exists l, adds now s s' (Completed (i_handle p) :: l) /\ forallb is_pdu l = true.
Proof.
  intros e now p s s'. unfold handle_iso. cbv zeta.
  set (s1 := schedule now (Say (Completed (i_handle p))) s). assert (A1 : adds now s s1 [Completed (i_handle p)]) by apply adds_say.
  assert (NONE : Some s1 = Some s' -> exists l, adds now s s' (Completed (i_handle p) :: l) /\ forallb is_pdu l = true).
  { intros [= <-]. exists []. auto. }
  destruct (_ <? _); [discriminate|]. destruct (_ && _); [discriminate|].
  destruct (cis_information _ _) as [[[[a g] c] mx]|]; auto. destruct (lookup (links s1) a) as [k|]; auto.
  set (s2 := if opens (i_boundary p) then with_sdu [] s1 else s1). assert (A2 : adds now s s2 [Completed (i_handle p)]).
  { change [Completed (i_handle p)] with ([Completed (i_handle p)] ++ []). eapply adds_trans; [exact A1|]. unfold s2. destruct (opens _); [now apply adds_same|apply adds_refl]. }
  destruct (parse_load _ _) as [[q d]|]; [|discriminate].
  assert (A3 : adds now s (with_sdu (sdu s2 ++ d) s2) [Completed (i_handle p)]).
  { change [Completed (i_handle p)] with ([Completed (i_handle p)] ++ []). eapply adds_trans; [exact A2|now apply adds_same]. }
  destruct (closes _); [|intros [= <-]; exists []; auto]. destruct (_ <? _); intros [= <-]; [exists []; auto|].
  exists [Sent (Frame (own k) (peer k) (IsoPdu g c q (sdu (with_sdu (sdu s2 ++ d) s2))))]. split; auto.
  change (Completed (i_handle p) :: ?l) with ([Completed (i_handle p)] ++ l ++ []). rewrite <- (app_nil_r [Sent _]) at 1.
  eapply adds_trans; [exact A3|]. eapply adds_trans; [apply adds_say|now apply adds_same].
Qed.

Lemma asked_service : forall now e k o x, (forall p, o <> HostAcl p) -> (forall p, o <> HostIso p) -> asked (Entry now e k o x) = [].
Proof. intros now e k o x A B. destruct o; auto; [now destruct (A p)|now destruct (B p)]. Qed.
Lemma asked_filter : forall e, filter acl_or_credit (asked e) = asked e.
Proof. intros e. unfold asked. destruct (what e); auto. destruct (lookup _ _) as [[a b]|]; auto. Qed.

Lemma step_acl : forall e now s o s' x, step e now s o = Some (s', x) -> inv now s ->
  inv now s' /\ filter acl_or_credit (x ++ waiting s') = filter acl_or_credit (waiting s) ++ asked (Entry now e (open_links s) o x).
Proof.
  intros e now s o s' x H I.
  assert (GO : forall l, adds now s s' l -> filter acl_or_credit x = [] -> filter acl_or_credit l = asked (Entry now e (open_links s) o x) ->
    inv now s' /\ filter acl_or_credit (x ++ waiting s') = filter acl_or_credit (waiting s) ++ asked (Entry now e (open_links s) o x)).
  { intros l A X L. destruct (A I) as (J & E). split; auto. now rewrite filter_app, X, E, filter_app, L. }
  destruct o; cbn [step] in H.
  - injection H as <- <-. destruct (link_up_adds e now h own peer s) as (l & S & A). apply (GO l); auto. now apply services_filter.
  - injection H as <- <-. destruct (disconnect_adds e now h reason 22 s) as (l & S & A). apply (GO l); auto. now apply services_filter.
  - injection H as <- <-. destruct (reset_adds now s) as (l & S & A). apply (GO l); auto. now apply services_filter.
  - destruct (handle_acl now p s) as [s1|] eqn:E; [|discriminate]. injection H as <- <-. apply (GO _ (handle_acl_adds e now p s s1 E)); auto.
    apply (asked_filter (Entry now e (open_links s) (HostAcl p) [])).
  - destruct (handle_iso e now p s) as [s1|] eqn:E; [|discriminate]. injection H as <- <-. destruct (handle_iso_adds _ _ _ _ _ E) as (l & A & P).
    apply (GO _ A); auto. cbn. f_equal. clear A E. induction l as [|y l IH]; auto. cbn in P. apply andb_true_iff in P as (P & Q). cbn.
    destruct y as [[? ? []]| | | |]; try discriminate. auto.
  - injection H as H. destruct (receive_adds _ _ _ _ _ _ H) as (l & S & A). apply (GO l); auto; [now apply (receive_outputs _ _ _ _ _ _ H)|]. now apply services_filter.
  - injection H as H. destruct (tick_effect _ _ _ _ _ H I) as (J & -> & S). split; auto. rewrite filter_app. destruct (services_filter _ S) as (-> & _). reflexivity.
Qed.

Lemma history_inv : forall h s now, history h s -> timely h -> (forall e, hd_error h = Some e -> at_time e <= now) -> inv now s.
Proof.
  intros h s now H. revert now. induction H as [|h s e t o s' x H IH S E]; intros now T L; [apply inv_initial|].
  apply (inv_later t); [apply (L _ eq_refl)|]. assert (I : inv t s).
  { apply IH; [destruct h; cbn in T; tauto|]. intros e' F. destruct h as [|e'' h']; [discriminate|]. injection F as ->. cbn in T. tauto. }
  apply (step_acl _ _ _ _ _ _ E I).
Qed.
Lemma history_before : forall e h s, history (e :: h) s -> timely (e :: h) -> exists s0, history h s0 /\ timely h /\ sound s0 (what e) /\
  known e = open_links s0 /\ step (seen e) (at_time e) s0 (what e) = Some (s, out e) /\ inv (at_time e) s0.
Proof.
  intros e h s H T. inversion H as [|h' s0 e' now o s' x H' S E]; subst. exists s0. cbn [what known seen at_time out]. assert (T' : timely h) by (destruct h; cbn in T; tauto).
  repeat split; auto. all: apply (history_inv h s0 now H' T'); intros e'' F; destruct h; [discriminate|]; injection F as ->; cbn in T; tauto.
Qed.

Lemma acl_total : forall h s, history h s -> timely h -> filter acl_or_credit (said h) ++ filter acl_or_credit (waiting s) = all_asked h.
Proof.
  intros h s H. induction H as [|h s e t o s' x H IH S E]; intros T; [reflexivity|]. cbn [said all_asked out].
  assert (HH : history (Entry t e (open_links s) o x :: h) s') by (econstructor; eassumption).
  destruct (history_before _ _ _ HH T) as (s0 & H0 & T0 & S0 & K0 & E0 & I0). cbn [what known seen at_time out] in *.
  assert (I : inv t s). { apply (history_inv h s t H T0). intros e'' F. destruct h; [discriminate|]. injection F as ->. cbn in T. tauto. }
  destruct (step_acl _ _ _ _ _ _ E I) as (_ & F). rewrite filter_app, <- app_assoc, <- filter_app, F, app_assoc, (IH T0). f_equal.
Qed.
Theorem acl_in_order : forall h s, history h s -> timely h -> exists rest, all_asked h = filter acl_or_credit (said h) ++ rest.
Proof. intros h s H T. eexists. symmetry. now apply acl_total with (s := s). Qed.
Theorem acl_flushed : forall e h s, history (e :: h) s -> timely (e :: h) -> what e = Tick -> filter acl_or_credit (said (e :: h)) = all_asked (e :: h).
Proof.
  intros e h s H T W. rewrite <- (acl_total _ _ H T). destruct (history_before _ _ _ H T) as (s0 & _ & _ & _ & _ & E & I). rewrite W in E. cbn [step] in E. injection E as E.
  destruct (tick_effect _ _ _ _ _ E I) as (_ & _ & S). destruct (services_filter _ S) as (-> & _). now rewrite app_nil_r.
Qed.

(** * ACL data received *)

Lemma choose_in : forall pick l x, Iso.choose pick l = Some x -> In x l.
Proof.
  intros pick l x. unfold Iso.choose. destruct l as [|y l]; [discriminate|]. intros E. assert (E' : nth (Nat.modulo pick (length (y :: l))) (y :: l) y = x) by congruence. rewrite <- E'. apply nth_In. apply Nat.mod_upper_bound. discriminate.
Qed.
Lemma choose_none : forall pick l, Iso.choose pick l = None <-> l = [].
Proof. intros pick [|x l]; cbn; split; intros; auto; discriminate. Qed.
Lemma links_between_filter : forall m t s, links_between m t s = keys (filter (fun e => (peer (snd e) =? t) && (own (snd e) =? m)) (links s)).
Proof.
  intros m t s. unfold links_between, open_links. induction (links s) as [|[k c] l IH]; cbn [map filter fst snd]; auto.
  destruct (_ && _); cbn [keys map fst]; [f_equal|]; exact IH.
Qed.
Lemma put_cons : forall (C : Type) (m : table C) j d k c, put ((j, d) :: m) k c = if j =? k then (k, c) :: m else (j, d) :: put m k c.
Proof. reflexivity. Qed.
Lemma open_put : forall m k c now, lookup m k = Some c ->
  map (fun e => (fst e, (own (snd e), peer (snd e)))) (put m k (Link (own c) (peer c) now)) = map (fun e => (fst e, (own (snd e), peer (snd e)))) m.
Proof.
  induction m as [|[j d] m IH]; intros k c now; [discriminate|]. rewrite put_cons. cbn [lookup]. destruct (N.eqb_spec j k) as [->|]; cbn [map fst snd own peer]; [now intros [= ->]|].
  intros L. f_equal. now apply IH.
Qed.
Theorem acl_received : forall e now f s b bc d s' x, about f = Acl b bc d -> step e now s (Receive f) = Some (s', x) ->
  open_links s' = open_links s /\
  (links_between (destination f) (source f) s = [] -> x = []) /\
  (links_between (destination f) (source f) s <> [] -> exists k, In k (links_between (destination f) (source f) s) /\
     x = [AclToHost (AclPacket k (if b =? 0 then 2 else b) bc d)]).
Proof.
  intros e now f s b bc d s' x A H. cbn [step] in H. injection H as H. unfold receive, link_of in H. rewrite <- links_between_filter in H. rewrite A in H.
  destruct (Iso.choose _ _) as [k|] eqn:C.
  - injection H as <- <-. split; [|split].
    + destruct (lookup (links s) k) as [c|] eqn:L; auto. now apply open_put.
    + intros E. rewrite E in C. discriminate.
    + intros _. exists k. split; [now apply choose_in in C|reflexivity].
  - injection H as <- <-. apply choose_none in C. split; [reflexivity|]. split; [reflexivity|]. intros N. now destruct N.
Qed.

(** * Isochronous data sent *)

Lemma forallb_filter_id : forall (A : Type) (P : A -> bool) l, forallb P l = true -> filter P l = l.
Proof. intros A P. induction l as [|x l IH]; cbn; intros H; auto. apply andb_true_iff in H as (-> & H). now rewrite IH. Qed.

(** The effect of a packet for the way [w] on the buffer, and what is sent *)
Definition sim (w : way) (buf : list N) (p : iso_packet) : list N * list output :=
  match parse_load (i_stamped p) (i_load p) with
  | None => (buf, [])
  | Some (seq, d) =>
      let b := (if opens (i_boundary p) then [] else buf) ++ d in
      if closes (i_boundary p) then
        if w_max w <? lenN b then (b, []) else ([], [Sent (Frame (w_own w) (w_peer w) (IsoPdu (w_cig w) (w_cis w) seq b))])
      else (b, [])
  end.
Fixpoint sims (ways : N -> way) (buf : list N) (l : list iso_packet) : list N * list output :=
  match l with
  | [] => (buf, [])
  | p :: l => let '(b, x) := sim (ways (i_handle p)) buf p in let '(b', x') := sims ways b l in (b', x ++ x')
  end.
Lemma sims_app : forall ways l m buf, sims ways buf (l ++ m) = let '(b, x) := sims ways buf l in let '(b', x') := sims ways b m in (b', x ++ x').
Proof.
  intros ways l m. induction l as [|p l IH]; intros buf; cbn [app sims].
  - now destruct (sims ways buf m).
  - destruct (sim _ buf p) as [b x]. rewrite IH. destruct (sims ways b l) as [b' x']. destruct (sims ways b' m) as [b'' x'']. now rewrite app_assoc.
Qed.

Lemma sdu_schedule : forall t j s, sdu (schedule t j s) = sdu s.
Proof. reflexivity. Qed.
Lemma sdu_disconnect : forall e now h a b s, sdu (disconnect e now h a b s) = sdu s.
Proof. intros. unfold disconnect, tell_disconnection. destruct (lookup _ _); auto. now destruct (told e). Qed.
Lemma sdu_check : forall e now h s, sdu (check_link e now h s) = sdu s.
Proof. intros. unfold check_link. destruct (lookup _ _); auto. destruct (_ <? _); [apply sdu_disconnect|]. now destruct (_ <? _). Qed.
Lemma sdu_run_tasks : forall e now l s s' x, run_tasks e now l s = (s', x) -> sdu s' = sdu s.
Proof.
  intros e now. induction l as [|t l IH]; cbn [run_tasks]; intros s s' x; [now intros [= <- _]|]. destruct (todo t).
  - destruct (run_tasks e now l s) eqn:E. intros [= <- _]. eauto.
  - destruct (run_tasks e now l _) eqn:E. intros [= <- _]. rewrite (IH _ _ _ E). apply sdu_check.
Qed.
Lemma sdu_step : forall e now s o s' x, step e now s o = Some (s', x) -> (forall p, o <> HostIso p) -> sdu s' = sdu s.
Proof.
  intros e now s o s' x H N. destruct o; cbn [step] in H.
  - injection H as <- _. unfold link_up. cbv zeta. rewrite sdu_check. now destruct (lookup _ _).
  - injection H as <- _. apply sdu_disconnect.
  - injection H as <- _. unfold reset. cbn [with_links sdu]. enough (A : forall cs s, sdu (fold_left (fun s c => transmit now (Frame (own c) (peer c) (Bye REMOTE_USER_TERMINATED)) s) cs s) = sdu s) by apply A.
    induction cs as [|c cs IH]; intros s0; auto. cbn [fold_left]. now rewrite IH.
  - unfold handle_acl in H. destruct (_ =? _); [|discriminate]. injection H as <- _. cbn [schedule sdu]. now destruct (lookup _ _).
  - now destruct (N p).
  - injection H as H. unfold receive in H. destruct (link_of _ _ _ s) as [h|]; [|now injection H as <- _]. cbv zeta in H.
    destruct (lookup (links s) h), (about f); injection H as <- _; auto; unfold tell_disconnection; now destruct (told e).
  - injection H as H. apply sdu_run_tasks in H. exact H.
Qed.

Lemma handle_iso_sim : forall e now p s s' w, handle_iso e now p s = Some s' ->
  leads (Entry now e (open_links s) (HostIso p) []) (i_handle p) w -> lenN (i_load p) <= iso_length e ->
  sdu s' = fst (sim w (sdu s) p) /\ adds now s s' (Completed (i_handle p) :: snd (sim w (sdu s) p)).
Proof.
  intros e now p s s' w H (c & a & C & A & G & I & M & K) L. cbn [seen known] in *. unfold handle_iso in H. cbv zeta in H.
  destruct (N.ltb_spec (iso_length e) (lenN (i_load p))); [lia|]. destruct (_ && _) eqn:ST; [discriminate|].
  unfold cis_information in H. rewrite C, A, G, I, M in H. rewrite open_lookup in K. change (links (schedule _ _ ?s)) with (links s) in H.
  destruct (lookup (links s) a) as [k|]; [|discriminate]. injection K as K1 K2. unfold sim. rewrite <- K1, <- K2.
  set (s1 := schedule now (Say (Completed (i_handle p))) s) in *. assert (A1 : adds now s s1 [Completed (i_handle p)]) by apply adds_say.
  set (s2 := if opens (i_boundary p) then with_sdu [] s1 else s1) in *. assert (A2 : adds now s s2 [Completed (i_handle p)]).
  { change [Completed (i_handle p)] with ([Completed (i_handle p)] ++ []). eapply adds_trans; [exact A1|]. unfold s2. destruct (opens _); [now apply adds_same|apply adds_refl]. }
  assert (B2 : sdu s2 = if opens (i_boundary p) then [] else sdu s) by (unfold s2; now destruct (opens _)).
  destruct (parse_load _ _) as [[q d]|]; [|discriminate]. cbn [with_sdu sdu] in H. rewrite <- B2.
  assert (A3 : adds now s (with_sdu (sdu s2 ++ d) s2) [Completed (i_handle p)]).
  { change [Completed (i_handle p)] with ([Completed (i_handle p)] ++ []). eapply adds_trans; [exact A2|now apply adds_same]. }
  destruct (closes _); [|injection H as <-; auto]. destruct (_ <? _); injection H as <-; auto. split; auto. cbn [snd].
  change (Completed (i_handle p) :: ?l) with ([Completed (i_handle p)] ++ l ++ []). rewrite <- (app_nil_r [Sent _]) at 1.
  eapply adds_trans; [exact A3|]. eapply adds_trans; [apply adds_say|now apply adds_same].
Qed.

Lemma step_pdu : forall e now s o s' x, step e now s o = Some (s', x) -> (forall p, o <> HostIso p) -> inv now s ->
  filter is_pdu (x ++ waiting s') = filter is_pdu (waiting s).
Proof.
  intros e now s o s' x H N I.
  assert (GO : forall l, adds now s s' l -> filter is_pdu x = [] -> filter is_pdu l = [] -> filter is_pdu (x ++ waiting s') = filter is_pdu (waiting s)).
  { intros l A X L. destruct (A I) as (J & E). now rewrite filter_app, X, E, filter_app, L, app_nil_r. }
  destruct o; cbn [step] in H.
  - injection H as <- <-. destruct (link_up_adds e now h own peer s) as (l & S & A). apply (GO l); auto. now apply services_filter.
  - injection H as <- <-. destruct (disconnect_adds e now h reason 22 s) as (l & S & A). apply (GO l); auto. now apply services_filter.
  - injection H as <- <-. destruct (reset_adds now s) as (l & S & A). apply (GO l); auto. now apply services_filter.
  - destruct (handle_acl now p s) as [s1|] eqn:E; [|discriminate]. injection H as <- <-. apply (GO _ (handle_acl_adds e now p s s1 E)); auto.
    unfold asked. cbn [what]. destruct (lookup _ _) as [[? ?]|]; auto.
  - now destruct (N p).
  - injection H as H. destruct (receive_adds _ _ _ _ _ _ H) as (l & S & A). apply (GO l); auto; [now apply (receive_outputs _ _ _ _ _ _ H)|]. now apply services_filter.
  - injection H as H. destruct (tick_effect _ _ _ _ _ H I) as (J & -> & S). rewrite filter_app. destruct (services_filter _ S) as (_ & ->). now rewrite app_nil_r.
Qed.

Lemma timely_app : forall a b, timely (a ++ b) -> timely b.
Proof. induction a as [|x a IH]; cbn [app]; intros b T; auto. apply IH. destruct (a ++ b); cbn in *; tauto. Qed.
Lemma said_app : forall a b, said (a ++ b) = said b ++ said a.
Proof. induction a as [|x a IH]; intros b; cbn [app said]; [now rewrite app_nil_r|]. now rewrite IH, app_assoc. Qed.

Lemma iso_run : forall ways es h s, history (es ++ h) s -> timely (es ++ h) -> led ways es ->
  exists s0, history h s0 /\ sdu s = fst (sims ways (sdu s0) (host_iso es)) /\
    pdus (es ++ h) ++ filter is_pdu (waiting s) = pdus h ++ filter is_pdu (waiting s0) ++ snd (sims ways (sdu s0) (host_iso es)).
Proof.
  intros ways. induction es as [|e es IH]; cbn [app]; intros h s H T L.
  - exists s. split; auto. split; auto. cbn. now rewrite app_nil_r.
  - destruct (history_before _ _ _ H T) as (s1 & H1 & T1 & _ & K & E & I).
    destruct (IH h s1 H1 T1) as (s0 & H0 & B & P). { intros e' p J. apply L. now right. }
    exists s0. split; auto. cbn [host_iso]. rewrite sims_app. destruct (sims ways (sdu s0) (host_iso es)) as [b x] eqn:SE. cbn [fst snd] in *.
    unfold pdus in *. cbn [said]. rewrite filter_app, <- app_assoc, <- filter_app.
    assert (OTHER : (forall p, what e <> HostIso p) -> sdu s = b /\ filter is_pdu (said (es ++ h)) ++ filter is_pdu (out e ++ waiting s) = filter is_pdu (said h) ++ filter is_pdu (waiting s0) ++ x).
    { intros N. rewrite (sdu_step _ _ _ _ _ _ E N), (step_pdu _ _ _ _ _ _ E N I). auto. }
    destruct (what e) eqn:W; try (cbn [sims fst snd]; rewrite app_nil_r; apply OTHER; intros ?; discriminate). clear OTHER.
    destruct (L e p (or_introl eq_refl) W) as (LE & F). cbn [step] in E. destruct (handle_iso (seen e) (at_time e) p s1) as [s2|] eqn:HI; [|discriminate]. injection E as <- <-.
    assert (LE' : leads (Entry (at_time e) (seen e) (open_links s1) (HostIso p) []) (i_handle p) (ways (i_handle p))). { rewrite <- K. exact LE. }
    destruct (handle_iso_sim _ _ _ _ _ _ HI LE' F) as (SD & AD). destruct (AD I) as (_ & WA). cbn [sims]. rewrite SD, B.
    destruct (sim (ways (i_handle p)) b p) as [b' y] eqn:SI. cbn [fst snd app]. rewrite app_nil_r. split; auto.
    rewrite WA, filter_app, B, SI. cbn [filter is_pdu snd]. rewrite app_assoc, P, <- !app_assoc. do 3 f_equal.
    apply forallb_filter_id. unfold sim in SI. destruct (parse_load _ _) as [[q d]|]; [|now injection SI as _ <-].
    destruct (closes _); [destruct (_ <? _)|]; now injection SI as _ <-.
Qed.

Lemma bytes2_value : forall n, n mod 256 + 256 * (n / 256) = n.
Proof. intros n. pose proof (N.div_mod' n 256). lia. Qed.
Lemma parse_header : forall t q n d, match t with Some l => lenN l = 4 | None => True end -> parse_load (stamped t) (header t q n ++ d) = Some (q, d).
Proof.
  intros [l|] q n d L; cbn [stamped].
  - do 4 (destruct l as [|? l]; [cbn in L; discriminate|]). destruct l as [|x l]; [|unfold lenN in L; cbn [length] in L; lia].
    cbn [header bytes2 app parse_load]. now rewrite bytes2_value.
  - cbn [header bytes2 app parse_load]. now rewrite bytes2_value.
Qed.
Lemma sims_fragments : forall ways h q n l buf, l <> [] ->
  let w := ways h in let d := buf ++ concat l in
  exists b, sims ways buf (fragments true h q n l) =
    (b, if lenN d <=? w_max w then [Sent (Frame (w_own w) (w_peer w) (IsoPdu (w_cig w) (w_cis w) q d))] else []).
Proof.
  intros ways h q n. induction l as [|d l IH]; intros buf N; [easy|]. cbv zeta in *. destruct l as [|d' l].
  - cbn [fragments sims i_handle concat]. unfold sim. cbn [i_stamped i_load i_boundary closes opens]. unfold more_header.
    change false with (stamped None). rewrite parse_header by auto. rewrite app_nil_r.
    destruct (N.ltb_spec (w_max (ways h)) (lenN (buf ++ d))), (N.leb_spec (lenN (buf ++ d)) (w_max (ways h))); try lia; eexists; reflexivity.
  - destruct (IH (buf ++ d)) as (b & E); [discriminate|]. exists b.
    change (fragments true h q n (d :: d' :: l)) with (IsoPacket h CONTINUATION false (more_header true q n ++ d) :: fragments true h q n (d' :: l)).
    cbn [sims i_handle]. unfold sim at 1. cbn [i_stamped i_load i_boundary closes opens]. unfold more_header at 1.
    change false with (stamped None) at 1. rewrite parse_header by auto. rewrite E. change (concat (d :: d' :: l)) with (d ++ concat (d' :: l)). now rewrite app_assoc.
Qed.
Lemma sims_unit : forall ways u buf, well_formed u -> exists b, sims ways buf (packets_of true u) = (b, carried ways u).
Proof.
  intros ways [h t q l] buf (N & Q & Z & T). unfold packets_of, carried, whole. cbn [u_chunks u_handle u_stamp u_seq] in *.
  destruct l as [|d [|d' l]]; [easy| |].
  - cbn [sims i_handle concat]. unfold sim. cbn [i_stamped i_load i_boundary closes opens]. rewrite parse_header by auto. rewrite app_nil_r. cbn [app].
    destruct (N.ltb_spec (w_max (ways h)) (lenN d)), (N.leb_spec (lenN d) (w_max (ways h))); try lia; eexists; reflexivity.
  - destruct (sims_fragments ways h q (lenN (concat (d :: d' :: l))) (d' :: l) d) as (b & E); [discriminate|]. exists b. unfold whole in *. cbn [u_chunks] in *.
    cbn [sims i_handle]. unfold sim at 1. cbn [i_stamped i_load i_boundary closes opens app]. rewrite parse_header by auto. now rewrite E.
Qed.
Lemma sims_units : forall ways us buf, Forall well_formed us -> exists b, sims ways buf (flat_map (packets_of true) us) = (b, flat_map (carried ways) us).
Proof.
  intros ways. induction us as [|u us IH]; intros buf F; [eexists; reflexivity|]. inversion_clear F as [|? ? F1 F2]. cbn [flat_map]. rewrite sims_app.
  destruct (sims_unit ways u buf F1) as (b & ->). destruct (IH b F2) as (b' & ->). eauto.
Qed.

Lemma after_tick : forall e h s, history (e :: h) s -> timely (e :: h) -> what e = Tick -> filter is_pdu (waiting s) = [].
Proof.
  intros e h s H T W. destruct (history_before _ _ _ H T) as (s0 & _ & _ & _ & _ & E & I). rewrite W in E. cbn [step] in E. injection E as E.
  destruct (tick_effect _ _ _ _ _ E I) as (_ & _ & S). now destruct (services_filter _ S).
Qed.

Lemma host_iso_tick : forall e es, what e = Tick -> host_iso (e :: es) = host_iso es.
Proof. intros e es W. cbn [host_iso]. rewrite W. apply app_nil_r. Qed.

Theorem units_sent : forall ways us e es e0 h s, history (e :: es ++ e0 :: h) s -> timely (e :: es ++ e0 :: h) -> what e = Tick -> what e0 = Tick ->
  led ways es -> Forall well_formed us -> host_iso es = flat_map (packets_of true) us ->
  pdus (e :: es ++ e0 :: h) = pdus (e0 :: h) ++ flat_map (carried ways) us.
Proof.
  intros ways us e es e0 h s H T W W0 L F E.
  assert (L' : led ways (e :: es)). { intros e' p [<-|J] W'; [congruence|]. now apply L. }
  destruct (iso_run ways (e :: es) (e0 :: h) s H T L') as (s0 & H0 & _ & P). rewrite (after_tick _ _ _ H T W), app_nil_r in P. cbn [app] in P.
  rewrite (after_tick _ _ _ H0 (timely_app (e :: es) _ T) W0) in P. rewrite (host_iso_tick e es W), E in P.
  destruct (sims_units ways us (sdu s0) F) as (b & SE). rewrite SE in P. cbn [snd app] in P. exact P.
Qed.

(** By the specification when every unit is in one packet *)
Lemma one_packet : forall every u d, u_chunks u = [d] -> packets_of every u = packets_of true u.
Proof. intros every u d E. unfold packets_of. now rewrite E. Qed.
Theorem whole_units_sent : forall ways us e es e0 h s, history (e :: es ++ e0 :: h) s -> timely (e :: es ++ e0 :: h) -> what e = Tick -> what e0 = Tick ->
  led ways es -> Forall well_formed us -> Forall (fun u => lenN (u_chunks u) = 1) us -> host_iso es = flat_map (packets_of false) us ->
  pdus (e :: es ++ e0 :: h) = pdus (e0 :: h) ++ flat_map (carried ways) us.
Proof.
  intros ways us e es e0 h s H T W W0 L F O E. eapply units_sent; eauto. rewrite E. clear - O. induction us as [|u us IH]; auto. inversion_clear O as [|? ? O1 O2]. cbn [flat_map].
  rewrite (IH O2). f_equal. destruct (u_chunks u) as [|d [|d' l]] eqn:C; try discriminate; [|unfold lenN in O1; cbn [length] in O1; lia]. eapply one_packet, C.
Qed.

(** Whatever the host sends, what leaves is no longer than the stream allows and goes to its link *)
Lemma handle_iso_pdu : forall e now p s s', handle_iso e now p s = Some s' ->
  exists l, adds now s s' (Completed (i_handle p) :: l) /\ forall o, In o l -> exists c a w q d, lookup (Iso.conns (iso e)) (i_handle p) = Some c /\
    lookup (links s) a = Some w /\ (Iso.c_acl c = Some a \/ Iso.c_acl c = None /\ a = 0xffff) /\ closes (i_boundary p) = true /\
    o = Sent (Frame (own w) (peer w) (IsoPdu (Iso.c_cig c) (Iso.c_cis c) q d)) /\ lenN d <= match max_sdu_tx c with Some n => n | None => 0 end.
Proof.
  intros e now p s s'. unfold handle_iso. cbv zeta. set (s1 := schedule now (Say (Completed (i_handle p))) s). assert (A1 : adds now s s1 [Completed (i_handle p)]) by apply adds_say.
  set (G := exists l, adds now s s' (Completed (i_handle p) :: l) /\ _).
  assert (NONE : Some s1 = Some s' -> G). { intros [= <-]. exists []. split; auto. intros o []. }
  destruct (_ <? _); [discriminate|]. destruct (_ && _); [discriminate|]. unfold cis_information. destruct (lookup (Iso.conns (iso e)) (i_handle p)) as [c|] eqn:C; auto.
  destruct (lookup (links s1) _) as [k|] eqn:K; auto.
  set (s2 := if opens (i_boundary p) then with_sdu [] s1 else s1). assert (A2 : adds now s s2 [Completed (i_handle p)]).
  { change [Completed (i_handle p)] with ([Completed (i_handle p)] ++ []). eapply adds_trans; [exact A1|]. unfold s2. destruct (opens _); [now apply adds_same|apply adds_refl]. }
  destruct (parse_load _ _) as [[q d]|]; [|discriminate].
  assert (A3 : adds now s (with_sdu (sdu s2 ++ d) s2) [Completed (i_handle p)]).
  { change [Completed (i_handle p)] with ([Completed (i_handle p)] ++ []). eapply adds_trans; [exact A2|now apply adds_same]. }
  destruct (closes _) eqn:CL; [|intros [= <-]; exists []; split; auto; intros o []]. destruct (N.ltb_spec (match max_sdu_tx c with Some n => n | None => 0 end) (lenN (sdu (with_sdu (sdu s2 ++ d) s2)))); intros [= <-]; [exists []; split; auto; intros o []|].
  exists [Sent (Frame (own k) (peer k) (IsoPdu (Iso.c_cig c) (Iso.c_cis c) q (sdu (with_sdu (sdu s2 ++ d) s2))))]. split.
  - change (Completed (i_handle p) :: ?l) with ([Completed (i_handle p)] ++ l ++ []). rewrite <- (app_nil_r [Sent _]) at 1.
    eapply adds_trans; [exact A3|]. eapply adds_trans; [apply adds_say|now apply adds_same].
  - intros o [<-|[]]. exists c, (match Iso.c_acl c with Some a => a | None => 0xffff end), k, q, (sdu (with_sdu (sdu s2 ++ d) s2)). repeat split; auto. destruct (Iso.c_acl c); auto.
Qed.
