(** Voice between two BR/EDR controllers. *)
From Coq Require Import Permutation.
From Verif Require Import Prelude Table Sco Bredr BredrBase BredrInv BredrConn BredrSpec BredrRefine BredrTime BredrFrame BredrData BredrFlow BredrPairSpec BredrPair BredrRemote BredrRole BredrRoles BredrSyncSpec BredrSync.
Open Scope N_scope.

Definition vo (h : N) (out : list output) : list (list N) := flat_map (fun o => match o with ScoToHost x d => if x =? h then [d] else [] | _ => [] end) out.
Lemma vo_app : forall h l l', vo h (l ++ l') = vo h l ++ vo h l'.
Proof. intros. apply flat_map_app. Qed.
Lemma vo_said : forall h s c e, vo h (said s c e) = [].
Proof. intros. unfold said. now destruct (unmasked s c). Qed.

(** * One controller *)
Section One.
Variable order : table sco_link -> table sco_link.
Variable cfg : config.
Hypothesis any_order : forall t, Permutation (order t) t.
Variable x : addr.
Definition voiced (o : op) (s : bredr) : list (list N) := match o with Receive _ p => if for_me p s && list_eqb (source p) x then voice_of p else [] | _ => [] end.
Lemma vo_dispatch : forall now rssi p s s' out h c, core s -> calls x s = [(h, c)] -> dispatch order cfg now rssi p s = Ok (s', out) ->
  vo h out = if list_eqb (source p) x then voice_of p else [].
Proof.
  intros now rssi p s s' out h c C CS D. unfold dispatch in D.
  assert (Z : forall l, vo h l = [] -> vo h l = if list_eqb (source p) x then [] else []) by (intros l ->; now destruct (list_eqb (source p) x)).
  assert (ABOUT : forall a c0 (e : N -> event), vo h (receive_about a c0 e s) = []) by (intros y c0 e; unfold receive_about; destruct (acl_of y s) as [[? d]|]; [apply vo_said|reflexivity]).
  unfold voice_of. destruct (content p) eqn:CO; unfold silent, answering in D;
    try (injection D as <- <-; apply Z; reflexivity);
    try (injection D as <- <-; apply Z; now apply vo_said);
    try (injection D as <- <-; apply Z; now apply ABOUT).
  - injection D as <- <-. unfold receive_acl. apply Z; destruct (acl_of _ s) as [[h0 c0]|]; reflexivity.
  - (* Voice *) injection D as <- <-. unfold receive_voice. destruct (list_eqb (source p) x) eqn:E.
    + apply list_eqb_eq in E. rewrite E. destruct (sco_of order x s) as [[h0 c0]|] eqn:F.
      * pose proof (only_call order any_order x s h0 c0 ltac:(rewrite CS; auto) F) as O. assert (h0 = h) by congruence. subst h0. cbn. now rewrite N.eqb_refl.
      * apply (sco_of_none order any_order) in F. congruence.
    + destruct (sco_of order (source p) s) as [[h0 c0]|] eqn:F; [|reflexivity]. cbn. destruct (N.eqb_spec h0 h) as [->|]; [|reflexivity].
      destruct (sco_lookup order any_order _ _ _ _ C F) as (L & P). assert (I : In (h, c) (calls x s)) by (rewrite CS; now left).
      unfold calls in I. apply filter_In in I. destruct I as (I & Q). cbn in Q. apply list_eqb_eq in Q. apply lookup_pair in L. 
      assert (c0 = c). { apply in_lookup_nodup in I. 2:{ apply (HandlesProofs.tinv_nodup _ _ _ _ (core_sco s C)). } apply in_lookup_nodup in L; [congruence|]. apply (HandlesProofs.tinv_nodup _ _ _ _ (core_sco s C)). }
      subst c0. rewrite <- P, Q, list_eqb_refl in E. discriminate.
  - unbind D. injection D as <- <-. now apply Z.
  - injection D as <- <-. unfold receive_inquiry_answer. apply Z;
    (destruct (mode =? 0); [now apply vo_said|]; destruct (mode =? 1); [now apply vo_said|]; destruct (mode =? 2); reflexivity).
  - injection D as D. unfold receive_page in D. apply Z; (destruct (negb (page_scan_enable s)); [now injection D as <- <-|];
    destruct (negb _); [now injection D as <- <-|]; destruct (has_acl_with _ s); [now injection D as <- <-|]; destruct (page_scan s); now injection D as <- <-).
  - unfold receive_page_response in D. destruct (paging (source p) s) eqn:PG; [|injection D as <- <-; now apply Z]. unbind D. injection D as <- <-.
    apply Z; rewrite ?vo_app;
      (match goal with |- context [if role_eqb ?x ?y then _ else _] => destruct (role_eqb x y) end); rewrite ?vo_said; reflexivity.
  - injection D as D. unfold receive_page_reject in D. apply Z; destruct (paging (source p) s); injection D as <- <-; try reflexivity; now apply vo_said.
  - unbind D. injection D as <- <-. now apply Z.
  - unfold receive_sco_request in D. apply Z. destruct (has_pending_sco order (source p) s); [now injection D as <- <-|]. cbv zeta in D. unbind D. now injection D as <- <-.
  - unfold receive_sco_response in D. apply Z. destruct (sco_of order (source p) s) as [[h0 c0]|]; [|now injection D as <- <-]. cbv zeta in D. destruct (st =? SUCCESS); [unbind D|no_stream D]; now injection D as <- <-.
Qed.
Lemma vo_step : forall hs s now o s' st out h c, history order cfg hs s -> timely (Entry now o st out :: hs) -> step order cfg now s o = Ok (s', st, out) -> calls x s = [(h, c)] -> vo h out = voiced o s.
Proof.
  intros hs s now o s' st out h c H T E CS. destruct o as [cm|k1 pb bc d|k1 d|rssi p|]; cbn [voiced].
  - cbn [step] in E. unbind E. injection E as <- <- <-. destruct cm; cbn [run_command] in E0; unfold quiet in E0;
    try (injection E0 as <- <- <-; reflexivity);
    try (unbind E0; injection E0 as <- <- <-; reflexivity).
    + destruct (enhanced_ok p e); [|now injection E0 as <- <- <-]. unbind E0. now injection E0 as <- <- <-.
    + destruct (enhanced_ok p e); [|now injection E0 as <- <- <-]. unbind E0. now injection E0 as <- <- <-.
    + destruct (lookup (acls s) h0); now injection E0 as <- <- <-.
    + destruct (7 <? n); now injection E0 as <- <- <-.
  - cbn [step] in E. unbind E. now injection E as <- <- <-.
  - cbn [step] in E. now injection E as <- <- <-.
  - cbn [step] in E. unbind E. injection E as <- <- <-. unfold receive in E0. destruct (for_me p s); [|now injection E0 as <- <-].
    pose proof (core_history order cfg any_order _ _ H) as C. rewrite (vo_dispatch _ _ _ _ _ _ h c (core_heard _ _ _ C) ltac:(unfold calls; rewrite scos_heard; exact CS) E0). reflexivity.
  - destruct (history_tick order cfg any_order _ _ _ _ _ _ H T E) as (s1 & -> & _). rewrite !vo_app.
    assert (P1 : vo h (snd (do_paging now s1)) = []). { unfold do_paging. destruct (page s1); auto. destruct (_ <=? _); auto. now destruct (_ && _). }
    assert (P2 : forall y, vo h (snd (do_inquiry now y)) = []). { intros y. unfold do_inquiry. destruct (inquiry y); auto. destruct (_ <=? _); [apply vo_said|]. now destruct (_ <=? _). }
    rewrite P1, P2, !app_nil_r. clear. induction (pending s) as [|j l IH]; auto. cbn [flat_map]. rewrite vo_app, IH, app_nil_r. destruct j; cbn [outcome]; try reflexivity; apply vo_said.
Qed.
(** What it sends *)
Definition says_voice (h : N) (o : op) : list (list N) := match o with ScoFromHost y d => if y =? h then [d] else [] | _ => [] end.
Definition voices (l : list air) : list (list N) := flat_map voice_of l.
Lemma voices_app : forall l l', voices (l ++ l') = voices l ++ voices l'.
Proof. intros. apply flat_map_app. Qed.
Lemma voices_none : forall l, (forall p, In p l -> voice_of p = []) -> voices l = [].
Proof. induction l as [|p l IH]; intros H; auto. cbn [voices flat_map]. rewrite H by now left. apply IH. intros q I. apply H. now right. Qed.
Definition voice_packet (o : op) (s : bredr) (q : air) : Prop := voice_of q <> [] -> source q = address s /\ exists h d, o = ScoFromHost h d.
Lemma voice_packets : forall o s, sends (voice_packet o s) (jobs_of order cfg o s).
Proof.
  intros o s. destruct o as [c|h pb bc d|h d|rssi p|]; cbn [jobs_of].
  - destruct c; cbn [jobs_of_command]; cbv zeta; unfold jobs_disconnect, jobs_accept, jobs_setup, jobs_accept_sync, jobs_ask, to; sending ltac:(intros X; now elim X).
  - unfold to. sending ltac:(intros X; now elim X).
  - unfold to. sending ltac:(intros _; split; [reflexivity|eauto]).
  - destruct (for_me p s); [|apply sends_nil]. unfold jobs_of_packet, to. cbv zeta. destruct (content p) eqn:CO; sending ltac:(intros X; now elim X).
  - apply sends_nil.
Qed.
Lemma says_voices : forall o s h c, core s -> calls x s = [(h, c)] -> calls empty_address s = [] -> voices (filter (addressed x) (pk (jobs_of order cfg o s))) = says_voice h o.
Proof.
  intros o s h c C CS NE. assert (Z : (forall y d, o <> ScoFromHost y d) -> voices (filter (addressed x) (pk (jobs_of order cfg o s))) = []).
  { intros NS. apply voices_none. intros p I. apply filter_In in I. destruct I as (I & _). pose proof (voice_packets o s p I) as X. destruct (voice_of p) eqn:V; auto. destruct X as (_ & y & d & ->); [now rewrite V|]. now elim (NS y d). }
  destruct o as [cm|k1 pb bc d|k1 d|rssi p|]; try (rewrite Z by discriminate; reflexivity). clear Z. cbn [jobs_of says_voice].
  assert (ND : NoDup (keys (scos s))) by apply (HandlesProofs.tinv_nodup _ _ _ _ (core_sco s C)).
  assert (I : In (h, c) (calls x s)) by (rewrite CS; now left). unfold calls in I. apply filter_In in I. destruct I as (I & Q). cbn in Q. apply list_eqb_eq in Q. apply in_lookup_nodup in I; auto.
  destruct (N.eqb_spec k1 h) as [->|D].
  - rewrite I. cbn. unfold addressed. cbn [destination]. rewrite Q, list_eqb_refl, orb_true_r. reflexivity.
  - destruct (lookup (scos s) k1) as [c1|] eqn:L; [|reflexivity]. cbn. unfold addressed. cbn [destination]. apply lookup_pair in L.
    assert (E1 : list_eqb (sco_peer c1) empty_address = false). { destruct (list_eqb (sco_peer c1) empty_address) eqn:E; auto. assert (X : In (k1, c1) (calls empty_address s)) by (unfold calls; apply filter_In; auto). rewrite NE in X. destruct X. }
    assert (E2 : list_eqb (sco_peer c1) x = false). { destruct (list_eqb (sco_peer c1) x) eqn:E; auto. assert (X : In (k1, c1) (calls x s)) by (unfold calls; apply filter_In; auto). rewrite CS in X. destruct X as [[= -> _]|[]]. now elim D. }
    now rewrite E1, E2.
Qed.
End One.

(** * Two controllers *)
Section Pair.
Variables (order1 order2 : table sco_link -> table sco_link) (cfg1 cfg2 : config) (a b : addr).
Hypothesis any1 : forall t, Permutation (order1 t) t.
Hypothesis any2 : forall t, Permutation (order2 t) t.
Variables h h' : N.
Definition voice_honest (p : air) : Prop := addressed b p = true /\ (voice_of p <> [] -> source p = a).
Lemma voice_told : forall e l, voice_heard h' (e :: l) = voice_heard h' l ++ vo h' (sent e).
Proof. intros. unfold voice_heard. cbn [rev]. rewrite flat_map_app. cbn [flat_map]. now rewrite app_nil_r. Qed.
Lemma voice_said : forall e l, voice_sent h (e :: l) = voice_sent h l ++ says_voice h (what e).
Proof. intros. unfold voice_sent. cbn [rev]. rewrite flat_map_app. cbn [flat_map]. now rewrite app_nil_r. Qed.
Lemma not_streaming : forall w, call_steady a b h h' w -> ~ streaming (left w).
Proof. intros w (_ & _ & _ & NS) (t & n & I & E). exact (NS t n I E). Qed.
Lemma addressed_right : forall hl hr w, reaches order1 order2 cfg1 cfg2 a b hl hr w -> forall p, In p (way_right b w) -> addressed b p = true.
Proof.
  intros hl hr w R. induction R as [|hl hr w e w' R IH M T|hl hr w e w' R IH M T].
  - intros p [].
  - destruct (left_way _ _ _ _ _ _ any1 any2 _ _ _ _ _ R M T) as (_ & (extra & WR & AD) & _ & HE). intros p I. rewrite WR in I. apply in_app_or in I. destruct I as [I|I]; [now apply IH|]. apply filter_In in I. now destruct I.
  - destruct (right_way _ _ _ _ _ _ any1 any2 _ _ _ _ _ R M T) as (_ & _ & _ & HE). destruct HE as [(_ & ->)|(rssi & p & _ & E)]; auto. rewrite E in IH. intros q I. apply IH. now right.
Qed.
Theorem voice_delivered : forall hl hr w0 nl nr w, meanwhile order1 order2 cfg1 cfg2 a b (call_steady a b h h') hl hr w0 nl nr w ->
  (forall p, In p (way_right b w0) -> voice_of p = []) ->
  voice_heard h' nr ++ voices (way_right b w) = voice_sent h nl.
Proof.
  intros hl hr w0 nl nr w M Q. enough (G : voice_heard h' nr ++ voices (way_right b w) = voice_sent h nl /\ forall p, In p (way_right b w) -> voice_of p <> [] -> source p = a) by apply G.
  induction M as [R K|nl nr w e w' M (IH & HO) MV T K'|nl nr w e w' M (IH & HO) MV T K'].
  - split; [now rewrite voices_none|]. intros p I V. elim V. now apply Q.
  - destruct (meanwhile_reaches _ _ _ _ _ _ _ _ _ _ _ _ _ M) as (R & K). destruct (reach_histories _ _ _ _ _ _ any1 any2 _ _ _ R) as (H1 & _ & _ & _ & A1 & _).
    destruct (left_way _ _ _ _ _ _ any1 any2 _ _ _ _ _ R MV T) as (_ & (extra & WR & AD) & _). pose proof (not_streaming _ K) as NS. destruct K as ((c & CS) & _ & NE & _).
    rewrite WR, voices_app, app_assoc, IH, voice_said. destruct AD as [(NT & ->)|(W & FM)].
    + fold (pk (jobs_of order1 cfg1 (what e) (left w))). rewrite (says_voices order1 cfg1 b _ _ _ _ (core_history order1 cfg1 any1 _ _ H1) CS NE). split; auto.
      intros p I V. apply in_app_or in I. destruct I as [I|I]; [now apply HO|]. apply filter_In in I. destruct I as (I & _). destruct (voice_packets order1 cfg1 _ _ p I V) as (E & _). congruence.
    + assert (NV : forall p, In p extra -> voice_of p = []). { intros p I. rewrite Forall_forall in FM. specialize (FM p I). unfold made_packet, made in FM. unfold voice_of. destruct (content p); auto. contradiction. }
      rewrite W. cbn [says_voice]. rewrite voices_none. 2:{ intros p I. apply filter_In in I. apply NV. apply I. } split; auto.
      intros p I V. apply in_app_or in I. destruct I as [I|I]; [now apply HO|]. apply filter_In in I. elim V. apply NV. apply I.
  - destruct (meanwhile_reaches _ _ _ _ _ _ _ _ _ _ _ _ _ M) as (R & K). destruct (reach_histories _ _ _ _ _ _ any1 any2 _ _ _ R) as (_ & H2 & _ & _ & _ & A2).
    destruct (right_way _ _ _ _ _ _ any1 any2 _ _ _ _ _ R MV T) as (_ & _ & (st & out & ST & SE & SO) & HE). destruct K as (_ & (c & CS) & _ & _).
    assert (T' : timely (Entry (at_time e) (what e) st out :: nr ++ hr)). { replace (Entry (at_time e) (what e) st out) with e; auto. destruct e. cbn in *. now subst. }
    rewrite voice_told, SE, (vo_step order2 cfg2 any2 a _ _ _ _ _ _ _ _ _ H2 T' ST CS).
    destruct HE as [(FO & ->)|(rssi & p & W & WR)].
    + assert (Z : voiced a (what e) (right w) = []). { destruct (what e) as [| | |rssi p|]; auto. cbn [voiced]. destruct (list_eqb (source p) a) eqn:E; [|now rewrite andb_false_r]. apply list_eqb_eq in E. now destruct FO. }
      rewrite Z, app_nil_r. auto.
    + rewrite W. cbn [voiced]. assert (FM : addressed b p = true) by (apply (addressed_right _ _ _ R); rewrite WR; now left). rewrite <- A2 in FM. change (for_me p (right w) = true) in FM. rewrite FM. cbn [andb].
      rewrite WR in HO, IH. split; [|intros q I V; apply HO; auto; now right]. cbn [voices flat_map] in IH. fold (voices (way_right b w')) in IH. rewrite <- IH, <- app_assoc. f_equal. f_equal.
      destruct (voice_of p) as [|d l] eqn:V; [now destruct (list_eqb (source p) a)|]. rewrite (HO p (or_introl eq_refl)), list_eqb_refl by now rewrite V. reflexivity.
Qed.
End Pair.
