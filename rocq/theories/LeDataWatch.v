(** Data over LE links: links end when the peer is silent, and not before. *)
From Coq Require Import Sorted.
From Verif Require Import Prelude Table LeData LeDataSpec LeDataProofs LeDataMore.
From Verif Require Iso.
Open Scope N_scope.

Lemma timely_past : forall h e x, timely (e :: h) -> In x h -> at_time x <= at_time e.
Proof.
  induction h as [|y h IH]; intros e x T I; [destruct I|]. cbn in T. destruct T as (L & T). destruct I as [<-|I]; auto.
  pose proof (IH y x T I). lia.
Qed.
Lemma contact_more : forall e h a b z, (exists x, In x h /\ contact a b x /\ at_time x = z) -> exists x, In x (e :: h) /\ contact a b x /\ at_time x = z.
Proof. intros e h a b z (x & I & R). exists x. split; [now right|auto]. Qed.

Lemma reset_frame : forall now s, links (reset now s) = [] /\ grows s (reset now s).
Proof.
  intros now s. split; [reflexivity|]. unfold reset. cbv zeta.
  enough (A : forall cs s, grows s (fold_left (fun s c => transmit now (Frame (own c) (peer c) (Bye REMOTE_USER_TERMINATED)) s) cs s)) by (intros u I; apply (A _ s u I)).
  induction cs as [|c cs IH]; intros s0 u I; auto. cbn [fold_left]. apply IH. now apply in_schedule.
Qed.
Lemma handle_acl_frame : forall now p s s', handle_acl now p s = Some s' -> links s' = links s /\ grows s s'.
Proof.
  intros now p s s'. unfold handle_acl. destruct (_ =? _); [|discriminate]. intros [= <-]. cbn [schedule links]. destruct (lookup _ _); split; auto; intros u I; repeat apply in_schedule; auto.
Qed.
Lemma handle_iso_frame : forall e now p s s', handle_iso e now p s = Some s' -> links s' = links s /\ grows s s'.
Proof.
  intros e now p s s'. unfold handle_iso. cbv zeta. set (s1 := schedule now (Say (Completed (i_handle p))) s).
  assert (A1 : links s1 = links s /\ grows s s1) by (split; [reflexivity|intros u; apply in_schedule]).
  destruct (_ <? _); [discriminate|]. destruct (_ && _); [discriminate|]. destruct (cis_information _ _) as [[[[a g] c] mx]|]; [|now intros [= <-]].
  destruct (lookup (links s1) a); [|now intros [= <-]]. set (s2 := if opens (i_boundary p) then with_sdu [] s1 else s1).
  assert (A2 : links s2 = links s /\ grows s s2) by (unfold s2; destruct (opens _); apply A1).
  destruct (parse_load _ _) as [[q d]|]; [|discriminate]. destruct (closes _); [|intros [= <-]; apply A2]. destruct (_ <? _); intros [= <-]; [apply A2|].
  split; [apply A2|]. intros u I. apply (in_schedule now). apply A2, I.
Qed.
(** The links after a packet: one of those between its addresses was heard, or ended *)
Lemma receive_frame : forall e now f s s' x, receive e now f s = (s', x) -> grows s s' /\
  (links s' = links s /\ links_between (destination f) (source f) s = [] \/
   exists k c, In k (links_between (destination f) (source f) s) /\ lookup (links s) k = Some c /\
    (links s' = put (links s) k (Link (own c) (peer c) now) \/ links s' = erase (put (links s) k (Link (own c) (peer c) now)) k)).
Proof.
  intros e now f s s' x. unfold receive, link_of. rewrite <- links_between_filter. destruct (Iso.choose _ _) as [k|] eqn:C.
  - pose proof (choose_in _ _ _ C) as I. assert (KI : In k (keys (links s))).
    { rewrite links_between_filter in I. unfold keys in *. apply in_map_iff in I as (y & <- & J). apply filter_In in J as (J & _). now apply in_map. }
    destruct (in_lookup (links s) k KI) as (c & L). rewrite L. cbv zeta. set (s1 := with_links (put (links s) k (Link (own c) (peer c) now)) s).
    assert (A1 : links s1 = put (links s) k (Link (own c) (peer c) now) /\ grows s s1) by (split; [reflexivity|intros u; auto]).
    destruct (about f); intros [= <- _]; try (split; [apply A1|right; exists k, c; auto]).
    + split; [intros u J; now apply in_schedule|right; exists k, c; auto].
    + destruct (tell_frame e now k reason (with_links (erase (links s1) k) s1)) as (E & G). split; [intros u J; apply G, J|]. right. exists k, c. split; auto.
  - intros [= <- _]. split; [intros u; auto|]. apply choose_none in C. auto.
Qed.

Lemma between_addresses : forall m t s k c, NoDup (keys (links s)) -> In k (links_between m t s) -> lookup (links s) k = Some c -> peer c = t /\ own c = m.
Proof.
  intros m t s k c D I L. rewrite links_between_filter in I. unfold keys in I. apply in_map_iff in I as ([j d] & E & J). cbn [fst] in E. subst j. apply filter_In in J as (J & B). cbn [snd] in B.
  apply andb_true_iff in B as (B1 & B2). apply N.eqb_eq in B1, B2. assert (d = c); [|subst; auto].
  clear B1 B2. induction (links s) as [|[i x] l IH]; [destruct J|]. cbn [lookup keys map fst] in *. inversion_clear D as [|? ? N D']. destruct J as [J|J].
  - injection J as -> ->. rewrite N.eqb_refl in L. congruence.
  - destruct (N.eqb_spec i k) as [->|]; [|auto]. exfalso. apply N. apply in_map_iff. now exists (k, d).
Qed.

Lemma keys_put_nodup : forall (C : Type) (m : table C) k c, NoDup (keys m) -> NoDup (keys (put m k c)).
Proof.
  intros C m k c. induction m as [|[j d] m IH]; intros D; [cbn; repeat constructor; auto|]. rewrite put_cons. inversion_clear D as [|? ? N D']. destruct (N.eqb_spec j k) as [->|NE]; [now constructor|].
  cbn [keys map fst]. constructor; [|now apply IH]. intros I. apply in_lookup in I as (x & L). rewrite lookup_put in L. destruct (N.eqb_spec j k); [easy|]. apply N. apply lookup_in in L. exact L.
Qed.

Lemma history_watch : forall h s, history h s -> timely h -> watch h s.
Proof.
  intros h s H. induction H as [|h s e t o s' x H IH S E]; intros T; [constructor; [constructor|discriminate..]|].
  assert (T0 : timely h) by (destruct h; cbn in T; tauto). destruct (IH T0) as [D C L].
  set (E0 := Entry t e (open_links s) o x) in *. assert (PAST : forall y, In y h -> at_time y <= t) by (intros y J; now apply (timely_past h E0)).
  assert (KEEP : links s' = links s -> grows s s' -> watch (E0 :: h) s').
  { intros EL G. constructor; rewrite EL; auto. - intros k c LK. eapply checked_grows; eauto. - intros k c LK. apply contact_more. eauto. }
  assert (DROP : forall k, links s' = erase (links s) k -> grows s s' -> watch (E0 :: h) s').
  { intros k EL G. constructor; rewrite EL; [now apply keys_erase_nodup| |].
    - intros j c LK. apply lookup_erase_some in LK. eapply checked_grows; eauto.
    - intros j c LK. apply lookup_erase_some in LK. apply contact_more. eauto. }
  destruct o; cbn [step] in E.
  - injection E as <- _. cbn [sound] in S. unfold link_up. cbv zeta. rewrite S. set (s1 := with_links (put (links s) h0 (Link own peer t)) s).
    destruct (check_frame e t h0 s1) as (G & F). assert (L1 : lookup (links s1) h0 = Some (Link own peer t)) by (cbn [s1 with_links links]; rewrite lookup_put, N.eqb_refl; reflexivity).
    rewrite L1 in F. cbn [last_heard] in F. destruct (N.ltb_spec (t + kTimeout) t); [lia|]. destruct F as (F & CK). constructor; rewrite ?F.
    + now apply keys_put_nodup.
    + intros k c LK. cbn [s1 with_links links] in LK. rewrite lookup_put in LK. destruct (N.eqb_spec k h0) as [->|NE]; [injection LK as <-; exact CK|]. eapply checked_grows; [exact G|]. apply C, LK.
    + intros k c LK. cbn [s1 with_links links] in LK. rewrite lookup_put in LK. destruct (N.eqb_spec k h0) as [->|NE].
      * injection LK as <-. exists E0. split; [now left|]. split; [|reflexivity]. right. cbn. eauto.
      * apply contact_more. eauto.
  - injection E as <- _. destruct (disconnect_frame e t h0 reason 22 s) as (EL & G). destruct (lookup (links s) h0); [eapply DROP; eauto|apply KEEP; auto].
  - injection E as <- _. destruct (reset_frame t s) as (EL & G). constructor; rewrite EL; [constructor|discriminate..].
  - destruct (handle_acl t p s) as [s1|] eqn:A; [|discriminate]. injection E as <- _. apply handle_acl_frame in A as (A & G). apply KEEP; auto.
  - destruct (handle_iso e t p s) as [s1|] eqn:A; [|discriminate]. injection E as <- _. apply handle_iso_frame in A as (A & G). apply KEEP; auto.
  - injection E as E. destruct (receive_frame _ _ _ _ _ _ E) as (G & [(EL & _)|(k & c & I & LK & OR)]); [now apply KEEP|].
    destruct (between_addresses _ _ _ _ _ D I LK) as (EP & EO).
    assert (PUT : forall j d, lookup (put (links s) k (Link (own c) (peer c) t)) j = Some d -> checked s' j (last_heard d + kTimeout) /\ exists y, In y (E0 :: h) /\ contact (own d) (peer d) y /\ at_time y = last_heard d).
    { intros j d. rewrite lookup_put. destruct (N.eqb_spec j k) as [->|NE].
      - intros [= <-]. cbn [own peer last_heard]. split.
        + destruct (C k c LK) as (u & U1 & U2 & U3). exists u. split; auto. split; auto. destruct (L k c LK) as (y & Y1 & _ & Y3). pose proof (PAST y Y1). lia.
        + exists E0. split; [now left|]. split; [|reflexivity]. left. cbn. auto.
      - intros LJ. split; [eapply checked_grows; eauto|]. apply contact_more. eauto. }
    destruct OR as [EL|EL]; constructor; rewrite ?EL.
    + now apply keys_put_nodup.
    + intros j d LJ. apply (PUT j d LJ).
    + intros j d LJ. apply (PUT j d LJ).
    + now apply keys_erase_nodup, keys_put_nodup.
    + intros j d LJ. apply lookup_erase_some in LJ. apply (PUT j d LJ).
    + intros j d LJ. apply lookup_erase_some in LJ. apply (PUT j d LJ).
  - injection E as E. unfold tick in E.
    assert (W : watched (ready t (queue s)) (with_queue (later t (queue s)) s)).
    { intros k c LK. destruct (C k c LK) as (u & U1 & U2 & U3). rewrite <- (ready_later t (queue s)) in U1. apply in_app_or in U1. destruct U1 as [U1|U1]; [right; eauto|left; exists u; auto]. }
    destruct (run_watch _ _ _ _ _ _ E W D) as (D' & K & _ & G). constructor; auto.
    + intros k c LK. now apply K.
    + intros k c LK. destruct (K k c LK) as (LK' & _). apply contact_more. apply L with (k := k). exact LK'.
Qed.

(** After a tick every link has been in contact within three seconds *)
Theorem supervised : forall e h s, history (e :: h) s -> timely (e :: h) -> what e = Tick ->
  forall k a b, In (k, (a, b)) (open_links s) -> exists x, In x h /\ contact a b x /\ at_time e <= at_time x + 3000000.
Proof.
  intros e h s H T W k a b I. destruct (history_before _ _ _ H T) as (s0 & H0 & T0 & _ & _ & E & INV). rewrite W in E. cbn [step] in E. injection E as E. unfold tick in E.
  destruct (history_watch _ _ H0 T0) as [D C L].
  assert (WA : watched (ready (at_time e) (queue s0)) (with_queue (later (at_time e) (queue s0)) s0)).
  { intros j c LK. destruct (C j c LK) as (u & U1 & U2 & U3). rewrite <- (ready_later (at_time e) (queue s0)) in U1. apply in_app_or in U1. destruct U1 as [U1|U1]; [right; eauto|left; exists u; auto]. }
  destruct (run_watch _ _ _ _ _ _ E WA D) as (D' & K & _ & G).
  unfold open_links in I. apply in_map_iff in I as ([j c] & EQ & I). cbn [fst snd] in EQ. injection EQ as -> <- <-.
  assert (LK : lookup (links s) k = Some c).
  { clear - D' I. induction (links s) as [|[i x] l IH]; [destruct I|]. cbn [lookup keys map fst] in *. inversion_clear D' as [|? ? N DD]. destruct I as [I|I].
    - injection I as -> ->. now rewrite N.eqb_refl.
    - destruct (N.eqb_spec i k) as [->|]; auto. exfalso. apply N. apply in_map_iff. now exists (k, c). }
  destruct (K k c LK) as (LK' & _ & OR). change (links (with_queue _ s0)) with (links s0) in LK'. destruct (L k c LK') as (x & X1 & X2 & X3). exists x. split; auto. split; auto. rewrite X3.
  change kTimeout with 3000000 in *. destruct OR as [OR|(u & U1 & U2 & U3)]; auto. cbn [with_queue queue] in U1.
  pose proof (later_due (at_time e) (queue s0) (inv_sorted _ _ INV)) as LD. rewrite Forall_forall in LD. specialize (LD u U1). cbn in LD. lia.
Qed.

(** No two links between the same addresses *)
Definition fresh_since (h : list entry) (s : state) : Prop :=
  forall k c e, lookup (links s) k = Some c -> In e h -> heard (own c) (peer c) e -> at_time e <= last_heard c.

Lemma between_unique : forall s k j c d, NoDup (map snd (open_links s)) -> lookup (links s) k = Some c -> lookup (links s) j = Some d -> own c = own d -> peer c = peer d -> k = j.
Proof.
  intros s k j c d ND LK LJ EO EP. apply lookup_pair in LK, LJ. unfold open_links in ND. rewrite map_map in ND. cbn in ND.
  assert (A : forall l, NoDup (map (fun x : N * link => (own (snd x), peer (snd x))) l) -> In (k, c) l -> In (j, d) l -> k = j).
  { clear - EO EP. induction l as [|[i x] l IH]; intros N I J; [destruct I|]. cbn [map snd] in N. inversion_clear N as [|? ? NI N']. destruct I as [I|I], J as [J|J].
    - congruence.
    - injection I as -> ->. exfalso. apply NI. apply in_map_iff. exists (j, d). cbn. split; auto. now rewrite EO, EP.
    - injection J as -> ->. exfalso. apply NI. apply in_map_iff. exists (k, c). cbn. split; auto. now rewrite EO, EP.
    - auto. }
  eapply A; eassumption.
Qed.
Lemma open_erase_nodup : forall (m : table link) k, NoDup (map snd (map (fun e => (fst e, (own (snd e), peer (snd e)))) m)) ->
  NoDup (map snd (map (fun e => (fst e, (own (snd e), peer (snd e)))) (erase m k))).
Proof.
  intros m k. rewrite !map_map. cbn. unfold erase. induction m as [|[i x] m IH]; cbn; intros N; [constructor|]. inversion_clear N as [|? ? NI N'].
  destruct (negb _); cbn; auto. constructor; auto. intros I. apply NI. apply in_map_iff in I as (y & E & J). apply filter_In in J as (J & _). apply in_map_iff. eauto.
Qed.
Lemma open_put_new : forall (m : table link) k c, lookup m k = None -> map (fun e => (fst e, (own (snd e), peer (snd e)))) (put m k c) = map (fun e => (fst e, (own (snd e), peer (snd e)))) m ++ [(k, (own c, peer c))].
Proof.
  induction m as [|[i x] m IH]; intros k c L; [reflexivity|]. rewrite put_cons. cbn [lookup] in L. destruct (i =? k); [discriminate|]. cbn [map app]. f_equal. now apply IH.
Qed.
Lemma run_subset : forall e now l s s' x, run_tasks e now l s = (s', x) -> forall k c, lookup (links s') k = Some c -> lookup (links s) k = Some c.
Proof.
  intros e now. induction l as [|t l IH]; cbn [run_tasks]; intros s s' x H j d L; [injection H as <- _; auto|]. destruct (todo t) as [o|h].
  - destruct (run_tasks e now l s) as [s1 o1] eqn:E. injection H as <- _. eauto.
  - destruct (run_tasks e now l (check_link e now h s)) as [s1 o1] eqn:E. injection H as <- _. apply (IH _ _ _ E) in L. destruct (check_frame e now h s) as (_ & F).
    destruct (lookup (links s) h); [destruct (_ <? _)|]; [rewrite F in L; eapply lookup_erase_some; eassumption|destruct F as (F & _); now rewrite F in L|now rewrite F in L].
Qed.
Lemma run_nodup : forall e now l s s' x, run_tasks e now l s = (s', x) -> NoDup (map snd (open_links s)) -> NoDup (map snd (open_links s')).
Proof.
  intros e now. induction l as [|t l IH]; cbn [run_tasks]; intros s s' x H D; [injection H as <- _; auto|]. destruct (todo t) as [o|h].
  - destruct (run_tasks e now l s) as [s1 o1] eqn:E. injection H as <- _. eauto.
  - destruct (run_tasks e now l (check_link e now h s)) as [s1 o1] eqn:E. injection H as <- _. apply (IH _ _ _ E). destruct (check_frame e now h s) as (_ & F). unfold open_links in *.
    destruct (lookup (links s) h); [destruct (_ <? _)|]; [rewrite F; now apply open_erase_nodup|destruct F as (F & _); now rewrite F|now rewrite F].
Qed.

Lemma history_fresh : forall h s, history h s -> timely h -> apart h -> NoDup (map snd (open_links s)) /\ fresh_since h s.
Proof.
  intros h s H. induction H as [|h s e t o s' x H IH S E]; intros T A; [split; [constructor|intros k c e L; discriminate]|].
  assert (T0 : timely h) by (destruct h; cbn in T; tauto). assert (A0 : apart h) by (intros y k a b z I; apply A; now right). destruct (IH T0 A0) as (D & F).
  pose proof (history_watch _ _ H T0) as [DK C L].
  set (E0 := Entry t e (open_links s) o x) in *. assert (PAST : forall y, In y h -> at_time y <= t) by (intros y J; now apply (timely_past h E0)).
  assert (NOT : (forall f, o <> Receive f) -> (forall k c, lookup (links s') k = Some c -> lookup (links s) k = Some c) -> fresh_since (E0 :: h) s').
  { intros NR SUB k c y LK [<-|I] HE; [|eapply F; eauto]. exfalso. unfold heard in HE. cbn in HE. destruct o; auto. now destruct (NR f). }
  destruct o; cbn [step] in E.
  - injection E as <- _. cbn [sound] in S. unfold link_up. cbv zeta. rewrite S. set (s1 := with_links (put (links s) h0 (Link own peer t)) s).
    destruct (check_frame e t h0 s1) as (G & FR). assert (L1 : lookup (links s1) h0 = Some (Link own peer t)) by (cbn [s1 with_links links]; rewrite lookup_put, N.eqb_refl; reflexivity).
    rewrite L1 in FR. cbn [last_heard] in FR. destruct (N.ltb_spec (t + kTimeout) t); [lia|]. destruct FR as (FR & _). split.
    + unfold open_links. rewrite FR. cbn [s1 with_links links]. rewrite open_put_new by auto. rewrite map_app. cbn [map snd LeData.own LeData.peer].
      pose proof (A E0 h0 own peer timeout (or_introl eq_refl) eq_refl) as NI. cbn [E0 known] in NI. apply NoDup_rev in D. rewrite <- (rev_involutive (map snd _ ++ _)). apply NoDup_rev. rewrite rev_app_distr. cbn [rev app]. constructor; auto.
      rewrite <- in_rev. exact NI.
    + intros k c y LK I HE. rewrite FR in LK. cbn [s1 with_links links] in LK. rewrite lookup_put in LK. destruct I as [<-|I]; [destruct HE|]. destruct (N.eqb_spec k h0) as [->|NE]; [injection LK as <-; cbn [last_heard]; auto|eapply F; eauto].
  - injection E as <- _. destruct (disconnect_frame e t h0 reason 22 s) as (EL & G). split.
    + unfold open_links. rewrite EL. destruct (lookup (links s) h0); [now apply open_erase_nodup|exact D].
    + apply NOT; [discriminate|]. rewrite EL. intros k c LK. destruct (lookup (links s) h0); auto. eapply lookup_erase_some, LK.
  - injection E as <- _. split; [constructor|]. apply NOT; [discriminate|]. cbn. discriminate.
  - destruct (handle_acl t p s) as [s1|] eqn:HA; [|discriminate]. injection E as <- _. apply handle_acl_frame in HA as (HA & G). split; [unfold open_links; now rewrite HA|]. apply NOT; [discriminate|now rewrite HA].
  - destruct (handle_iso e t p s) as [s1|] eqn:HA; [|discriminate]. injection E as <- _. apply handle_iso_frame in HA as (HA & G). split; [unfold open_links; now rewrite HA|]. apply NOT; [discriminate|now rewrite HA].
  - injection E as E. destruct (receive_frame _ _ _ _ _ _ E) as (G & [(EL & EMPTY)|(k & c & I & LK & OR)]).
    + split; [unfold open_links; now rewrite EL|]. intros k c y LK [<-|I] HE; [|rewrite EL in LK; eapply F; eauto]. exfalso. unfold heard in HE. cbn in HE. destruct HE as (H1 & H2).
      rewrite EL in LK. assert (IN : In k (links_between (destination f) (source f) s)); [|rewrite EMPTY in IN; destruct IN].
      rewrite links_between_filter. unfold keys. apply in_map_iff. exists (k, c). split; auto. apply filter_In. split; [now apply lookup_pair|]. cbn [snd]. now rewrite H1, H2, !N.eqb_refl.
    + destruct (between_addresses _ _ _ _ _ DK I LK) as (EP & EO).
      assert (PUT : forall j d y, lookup (put (links s) k (Link (own c) (peer c) t)) j = Some d -> In y (E0 :: h) -> heard (own d) (peer d) y -> at_time y <= last_heard d).
      { intros j d y. rewrite lookup_put. destruct (N.eqb_spec j k) as [->|NE].
        - intros [= <-] [<-|J] _; cbn [last_heard]; [reflexivity|auto].
        - intros LJ [<-|J] HE; [|eapply F; eauto]. exfalso. apply NE. unfold heard in HE. cbn in HE. eapply (between_unique s j k d c); eauto; [destruct HE; congruence|destruct HE; congruence]. }
      destruct OR as [EL|EL].
      * split; [unfold open_links; rewrite EL, open_put by auto; exact D|]. intros j d y LJ. rewrite EL in LJ. apply (PUT j d y LJ).
      * split; [unfold open_links; rewrite EL; apply open_erase_nodup; rewrite open_put by auto; exact D|]. intros j d y LJ. rewrite EL in LJ. apply lookup_erase_some in LJ. apply (PUT j d y LJ).
  - injection E as E. unfold tick in E. split; [eapply run_nodup; [exact E|exact D]|]. apply NOT; [discriminate|]. intros k c LK. apply (run_subset _ _ _ _ _ _ E k c LK).
Qed.

(** A tick ends no link whose peer was heard within three seconds *)
Theorem not_early : forall e h s, history (e :: h) s -> timely (e :: h) -> apart h -> what e = Tick ->
  forall k a b, lookup (known e) k = Some (a, b) -> lookup (open_links s) k = None -> forall x, In x h -> heard a b x -> at_time x + 3000000 < at_time e.
Proof.
  intros e h s H T A W k a b LK LN x I HE. destruct (history_before _ _ _ H T) as (s0 & H0 & T0 & _ & K & E & INV). rewrite W in E. cbn [step] in E. injection E as E. unfold tick in E.
  pose proof (history_watch _ _ H0 T0) as [D C L]. destruct (history_fresh _ _ H0 T0 A) as (_ & F).
  assert (WA : watched (ready (at_time e) (queue s0)) (with_queue (later (at_time e) (queue s0)) s0)).
  { intros j c LJ. destruct (C j c LJ) as (u & U1 & U2 & U3). rewrite <- (ready_later (at_time e) (queue s0)) in U1. apply in_app_or in U1. destruct U1 as [U1|U1]; [right; eauto|left; exists u; auto]. }
  destruct (run_watch _ _ _ _ _ _ E WA D) as (_ & _ & END & _). rewrite K, open_lookup in LK. rewrite open_lookup in LN.
  destruct (lookup (links s0) k) as [c|] eqn:L0; [|discriminate]. injection LK as <- <-. destruct (lookup (links s) k) eqn:L1; [discriminate|].
  pose proof (END k c L0 L1) as Z. pose proof (F k c x L0 I HE). change kTimeout with 3000000 in Z. lia.
Qed.

(** Nothing but a disconnection by a host or a reset ends a link between ticks *)
Theorem ends_only : forall e h s, history (e :: h) s -> timely (e :: h) ->
  forall k a b, lookup (known e) k = Some (a, b) -> lookup (open_links s) k = None ->
  what e = Tick \/ what e = Reset \/ (exists r, what e = Disconnect k r) \/ exists r, what e = Receive (Frame b a (Bye r)).
Proof.
  intros e h s H T k a b LK LN. destruct (history_before _ _ _ H T) as (s0 & H0 & T0 & S & K & E & INV). rewrite K, open_lookup in LK. rewrite open_lookup in LN.
  pose proof (history_watch _ _ H0 T0) as [D _ _].
  destruct (lookup (links s0) k) as [c|] eqn:L0; [|discriminate]. injection LK as <- <-. destruct (lookup (links s) k) eqn:L1; [discriminate|]. clear LN.
  destruct (what e) eqn:W; auto; cbn [step sound] in *.
  - exfalso. injection E as <- _. unfold link_up in L1. cbv zeta in L1. rewrite S in L1. set (s1 := with_links (put (links s0) h0 (Link own peer (at_time e))) s0) in *.
    destruct (check_frame (seen e) (at_time e) h0 s1) as (G & FR). assert (Q1 : lookup (links s1) h0 = Some (Link own peer (at_time e))) by (cbn [s1 with_links links]; rewrite lookup_put, N.eqb_refl; reflexivity).
    rewrite Q1 in FR. cbn [last_heard] in FR. destruct (N.ltb_spec (at_time e + kTimeout) (at_time e)); [lia|]. destruct FR as (FR & _). rewrite FR in L1. cbn [s1 with_links links] in L1. rewrite lookup_put in L1. destruct (k =? h0); congruence.
  - injection E as <- _. destruct (disconnect_frame (seen e) (at_time e) h0 reason 22 s0) as (EL & _). rewrite EL in L1. destruct (lookup (links s0) h0) eqn:Q; [|congruence]. rewrite lookup_erase in L1. destruct (N.eqb_spec k h0) as [->|]; [eauto|congruence].
  - exfalso. destruct (handle_acl (at_time e) p s0) as [s1|] eqn:HA; [|discriminate]. injection E as <- _. apply handle_acl_frame in HA as (HA & G). congruence.
  - exfalso. destruct (handle_iso (seen e) (at_time e) p s0) as [s1|] eqn:HA; [|discriminate]. injection E as <- _. apply handle_iso_frame in HA as (HA & G). congruence.
  - injection E as E. right. right. right. unfold receive, link_of in E. rewrite <- links_between_filter in E. destruct (Iso.choose _ _) as [j|] eqn:CH; [|injection E as <- _; congruence].
    apply choose_in in CH. destruct (lookup (links s0) j) as [cj|] eqn:LJ.
    + destruct (between_addresses _ _ _ _ _ D CH LJ) as (EP & EO). cbv zeta in E.
      assert (P : lookup (put (links s0) j (Link (own cj) (peer cj) (at_time e))) k <> None). { rewrite lookup_put. destruct (k =? j); congruence. }
      destruct (about f) eqn:AB; injection E as <- _; try (exfalso; exact (P L1)).
      destruct (tell_frame (seen e) (at_time e) j reason (with_links (erase (links (with_links (put (links s0) j (Link (own cj) (peer cj) (at_time e))) s0)) j) (with_links (put (links s0) j (Link (own cj) (peer cj) (at_time e))) s0))) as (EL & _).
      pose proof (eq_trans (eq_sym (f_equal (fun m => lookup m k) EL)) L1) as L2. cbn [with_links links] in L2. rewrite lookup_erase in L2. destruct (N.eqb_spec k j) as [->|]; [|now destruct P]. assert (cj = c) by congruence. subst. exists reason. f_equal. destruct f as [sf df af]; cbn in *; congruence.
    + exfalso. rewrite links_between_filter in CH. unfold keys in CH. apply in_map_iff in CH as (y & <- & J). apply filter_In in J as (J & _). apply lookup_none in LJ. apply LJ. now apply in_map.
Qed.
