(** The search for devices of a BR/EDR controller: when its packets are sent, and which
    answers it reports when another controller is in range. *)
From Coq Require Import Permutation.
From Verif Require Import Prelude Table Sco Bredr BredrBase BredrInv BredrConn BredrSpec BredrRefine BredrTime BredrFrame BredrData BredrFlow BredrPairSpec BredrPair BredrInquirySpec BredrInquiry.
From Verif Require BredrRemote BredrRoles.
Open Scope N_scope.

(** * When the packets are sent *)
(** The running inquiry is one that was accepted *)
Definition belongs (h : list entry) (f : search) : Prop :=
  exists e len num, In e h /\ what e = Command (Inquire (code f) len num) /\ succeeded (status_of e) = true /\
    begun f = at_time e /\ begun f + 2 * second <= next_at f /\ ends_at f = begun f + len * 1280000.
Lemma belongs_more : forall e h f, belongs h f -> belongs (e :: h) f.
Proof. intros e h f (x & len & num & I & R). exists x, len, num. split; [now right|exact R]. Qed.
Lemma searching_belongs : forall h f, searching h = Some f -> belongs h f.
Proof.
  induction h as [|e h IH]; intros f H; [discriminate|]. cbn [searching] in H.
  destruct (what e) as [c| | | |] eqn:W; try (apply belongs_more, IH, H).
  - destruct c; try (apply belongs_more, IH, H); try discriminate.
    + destruct (succeeded (status_of e)) eqn:S; [|apply belongs_more, IH, H]. injection H as <-. exists e, length, responses. cbn. repeat split; auto. lia.
    + destruct (succeeded (status_of e)); [discriminate|]. apply belongs_more, IH, H.
  - destruct (searching h) as [g|]; [|discriminate]. destruct (ends_at g <=? at_time e) eqn:E1; [discriminate|]. specialize (IH g eq_refl).
    destruct (next_at g <=? at_time e) eqn:E2; injection H as <-; apply belongs_more; auto.
    destruct IH as (x & len & num & I & A1 & A2 & A3 & A4 & A5). exists x, len, num. cbn. apply N.leb_le in E2. repeat split; auto. lia.
Qed.
Theorem probe_in_time : forall h p, In p (probes h) ->
  exists e len num, In e h /\ what e = Command (Inquire (asked_code p) len num) /\ succeeded (status_of e) = true /\
    at_time e + 2 * second <= asked_at p < at_time e + len * 1280000.
Proof.
  induction h as [|e h IH]; intros p I; [destruct I|]. cbn [probes] in I. apply in_app_or in I. destruct I as [I|I].
  - destruct (IH p I) as (x & len & num & J & R). exists x, len, num. split; [now right|exact R].
  - destruct (what e); try destruct I. destruct (searching h) as [f|] eqn:S; [|destruct I]. destruct (N.leb_spec (ends_at f) (at_time e)) as [_|E1]; [destruct I|].
    destruct (N.leb_spec (next_at f) (at_time e)) as [E2|_]; [|destruct I]. destruct I as [<-|[]]. apply searching_belongs in S.
    destruct S as (x & len & num & I & A1 & A2 & A3 & A4 & A5). exists x, len, num. cbn. split; [now right|]. repeat split; auto; lia.
Qed.
(** An inquiry of the shortest length sends nothing *)
Theorem short_inquiry : forall h, (forall e lap len num, In e h -> what e = Command (Inquire lap len num) -> len <= 1) -> probes h = [].
Proof.
  intros h K. destruct (probes h) as [|p l] eqn:E; auto. destruct (probe_in_time h p) as (e & len & num & I & W & _ & T1 & T2); [rewrite E; now left|].
  pose proof (K _ _ _ _ I W). unfold second in T1. lia.
Qed.

Lemma spaced_snoc : forall l x, spaced l -> (forall y, In y l -> asked_at y + 2 * second <= asked_at x) -> spaced (l ++ [x]).
Proof.
  induction l as [|y l IH]; intros x S K; [exact Logic.I|]. cbn [app]. destruct l as [|z l].
  - cbn. split; [apply K; now left|exact Logic.I].
  - cbn [app] in *. destruct S as (S1 & S2). split; auto. apply IH; auto. intros u I. apply K. now right.
Qed.
Lemma probes_past : forall h, timely h -> forall p, In p (probes h) -> exists e, In e h /\ asked_at p = at_time e.
Proof.
  induction h as [|e h IH]; intros T p I; [destruct I|]. cbn [probes] in I. apply in_app_or in I. destruct I as [I|I].
  - destruct (IH (proj2 T) p I) as (x & J & R). exists x. split; [now right|exact R].
  - destruct (what e); try destruct I. destruct (searching h) as [f|]; [|destruct I]. destruct (_ <=? _); [destruct I|]. destruct (_ <=? _); [|destruct I].
    destruct I as [<-|[]]. exists e. split; [now left|reflexivity].
Qed.
Lemma next_later : forall h, timely h -> forall f, searching h = Some f -> forall p, In p (probes h) -> asked_at p + 2 * second <= next_at f.
Proof.
  induction h as [|e h IH]; intros T f S p I; [discriminate|]. destruct T as (T1 & T2). cbn [probes] in I. apply in_app_or in I.
  assert (PAST : In p (probes h) -> asked_at p <= at_time e). { intros J. destruct (probes_past h T2 p J) as (x & X & ->). now apply T1. }
  cbn [searching] in S. destruct (what e) as [c| | | |].
  - destruct I as [I|[]]. destruct c; try (exact (IH T2 _ S _ I)); try discriminate.
    + destruct (succeeded _); [|exact (IH T2 _ S _ I)]. injection S as <-. cbn. specialize (PAST I). lia.
    + destruct (succeeded _); [discriminate|]. exact (IH T2 _ S _ I).
  - destruct I as [I|[]]. exact (IH T2 _ S _ I).
  - destruct I as [I|[]]. exact (IH T2 _ S _ I).
  - destruct I as [I|[]]. exact (IH T2 _ S _ I).
  - destruct (searching h) as [g|] eqn:SG; [|discriminate]. destruct (ends_at g <=? at_time e) eqn:E1; [discriminate|].
    destruct (next_at g <=? at_time e) eqn:E2; injection S as <-.
    + cbn. destruct I as [I|[<-|[]]]; [specialize (PAST I)|cbn]; lia.
    + destruct I as [I|[]]. apply (IH T2 g eq_refl p I).
Qed.
Theorem probes_spaced : forall h, timely h -> spaced (probes h).
Proof.
  induction h as [|e h IH]; intros T; [exact Logic.I|]. pose proof T as T0. destruct T as (T1 & T2). specialize (IH T2). cbn [probes].
  destruct (what e); rewrite ?app_nil_r; auto. destruct (searching h) as [f|] eqn:S; rewrite ?app_nil_r; auto. destruct (_ <=? _); rewrite ?app_nil_r; auto.
  destruct (N.leb_spec (next_at f) (at_time e)) as [E2|E2]; rewrite ?app_nil_r; auto. apply spaced_snoc; auto. intros p I. pose proof (next_later h T2 f S p I). cbn. lia.
Qed.

(** * Two controllers *)
Section Pair.
Variables (order1 order2 : table sco_link -> table sco_link) (cfg1 cfg2 : config) (a b : addr).
Hypothesis any1 : forall t, Permutation (order1 t) t.
Hypothesis any2 : forall t, Permutation (order2 t) t.

Lemma left_addressed : forall hl hr w, reaches order1 order2 cfg1 cfg2 a b hl hr w -> Forall (fun p => addressed b p = true) (to_right w) /\ Forall (fun p => addressed a p = true) (to_left w).
Proof.
  assert (F : forall x l, Forall (fun p => addressed x p = true) (filter (addressed x) l)) by (intros x l; apply Forall_forall; intros p I; now apply filter_In in I).
  intros hl hr w R. induction R as [|hl hr w e w' R (IH1 & IH2) M T|hl hr w e w' R (IH1 & IH2) M T]; [split; constructor| |]; inversion M; subst; cbn [to_left to_right].
  - split; auto. apply Forall_app. auto.
  - split; [apply Forall_app; auto|]. rewrite H in IH2. now inversion IH2.
  - split; auto. apply Forall_app. auto.
  - split; [|apply Forall_app; auto]. rewrite H in IH1. now inversion IH1.
Qed.

Lemma sent_cons : forall e h, inquiries_sent (e :: h) = inquiries_sent h ++ filter is_inquiry (packets (sent e)).
Proof. intros e h. unfold inquiries_sent. cbn [rev]. rewrite flat_map_app. cbn [flat_map]. now rewrite app_nil_r. Qed.
Lemma heard_cons : forall e h, inquiries_heard a (e :: h) = inquiries_heard a h ++ hears_inquiry a e.
Proof. intros e h. unfold inquiries_heard. cbn [rev]. rewrite flat_map_app. cbn [flat_map]. now rewrite app_nil_r. Qed.
(** Every inquiry packet has the shape of a probe *)
Definition asks_all (p : air) : Prop := source p = a /\ destination p = empty_address.
Lemma sent_shape : forall hl hr w, reaches order1 order2 cfg1 cfg2 a b hl hr w -> Forall asks_all (inquiries_sent hl) /\ Forall asks_all (inquiries (left w)).
Proof.
  intros hl hr w R. destruct (reach_histories _ _ _ _ _ _ any1 any2 _ _ _ R) as (H1 & _ & T1 & _ & A1 & _).
  pose proof (probes_sent order1 cfg1 any1 _ _ H1 T1) as P. rewrite A1 in P.
  assert (X : Forall asks_all (map (probe_packet a) (probes hl))). { apply Forall_forall. intros p I. apply in_map_iff in I. destruct I as (q & <- & _). split; reflexivity. }
  rewrite <- P in X. now apply Forall_app in X.
Qed.
Lemma all_addressed : forall l, Forall asks_all (filter is_inquiry l) -> filter is_inquiry (filter (addressed b) l) = filter is_inquiry l.
Proof.
  induction l as [|p l IH]; intros F; auto. cbn [filter] in *. destruct (is_inquiry p) eqn:Q.
  - inversion F as [|? ? F1 F2]; subst. assert (AD : addressed b p = true) by (unfold addressed; rewrite (proj2 F1); now rewrite list_eqb_refl).
    rewrite AD. cbn [filter]. rewrite Q. f_equal. auto.
  - destruct (addressed b p); cbn [filter]; rewrite ?Q; auto.
Qed.
Lemma heard_air : forall hl hr w, reaches order1 order2 cfg1 cfg2 a b hl hr w ->
  map snd (inquiries_heard a hr) ++ filter is_inquiry (to_right w) = inquiries_sent hl.
Proof.
  intros hl hr w R. induction R as [|hl hr w e w' R IH M T|hl hr w e w' R IH M T]; [reflexivity| |].
  - pose proof (left_moves _ _ _ _ _ _ _ _ _ _ _ R M T) as R'. destruct (sent_shape _ _ _ R') as (SH & _). rewrite sent_cons in *. apply Forall_app in SH. destruct SH as (_ & SH).
    inversion M; subst; cbn [to_right sent] in *; rewrite filter_app, app_assoc, IH, all_addressed by exact SH; reflexivity.
  - destruct (sent_shape _ _ _ R) as (SH & _). rewrite heard_cons, map_app.
    inversion M as [| |now o s st out F E|now rssi p l s st out TR E]; subst; cbn [to_right] in *.
    + assert (HN : hears_inquiry a (Entry now o st out) = []).
      { unfold hears_inquiry. cbn [what]. destruct o; auto. destruct F as (F & _). now rewrite (BredrRemote.eqb_false _ _ F). }
      rewrite HN. cbn [map]. now rewrite app_nil_r.
    + rewrite TR in IH. cbn [filter] in IH. rewrite <- IH, <- app_assoc. f_equal. unfold hears_inquiry. cbn [what].
      destruct (is_inquiry p) eqn:Q; [|now rewrite Bool.andb_false_r]. rewrite <- IH in SH. apply Forall_app in SH. destruct SH as (_ & SH). inversion SH as [|? ? (S1 & _) _]; subst.
      now rewrite S1, list_eqb_refl.
Qed.
(** The inquiry packets that the device has heard, and those on their way, are those of the inquiries *)
Theorem inquiries_arrive : forall hl hr w, reaches order1 order2 cfg1 cfg2 a b hl hr w ->
  map snd (inquiries_heard a hr) ++ still_asked b w = map (probe_packet a) (probes hl).
Proof.
  intros hl hr w R. destruct (reach_histories _ _ _ _ _ _ any1 any2 _ _ _ R) as (H1 & _ & T1 & _ & A1 & _).
  pose proof (probes_sent order1 cfg1 any1 _ _ H1 T1) as P. rewrite A1 in P. rewrite <- P, <- (heard_air _ _ _ R), <- app_assoc. f_equal.
  unfold still_asked, way_right. rewrite filter_app. f_equal. apply all_addressed. apply (sent_shape _ _ _ R).
Qed.

(** ** The answers *)
Variables (visible : bool) (codes : list N) (cls : N) (data : list N).
Let sight := in_sight visible codes cls data.

Definition answers_of (l : list air) : list event := flat_map (by_answer b) l.
Lemma answers_app : forall x y, answers_of (x ++ y) = answers_of x ++ answers_of y.
Proof. intros. apply flat_map_app. Qed.
Lemma answers_none : forall l, (forall p, In p l -> is_reply p = false) -> answers_of l = [].
Proof.
  intros l K. apply flat_map_none. intros p I. specialize (K p I). unfold is_reply in K. unfold by_answer. now destruct (content p).
Qed.
Lemma answers_filter_none : forall l, (forall p, In p l -> is_reply p = false) -> answers_of (filter (addressed a) l) = [].
Proof. intros l K. apply answers_none. intros p I. apply filter_In in I. now apply K. Qed.
Lemma results_app : forall x y, results_in b (x ++ y) = results_in b x ++ results_in b y.
Proof. intros. apply flat_map_app. Qed.
Lemma results_cons : forall e h, results b (e :: h) = results b h ++ results_in b (sent e).
Proof. intros e h. unfold results. cbn [rev]. rewrite flat_map_app. cbn [flat_map]. now rewrite app_nil_r. Qed.
Lemma no_search_results : forall out, filter of_search out = [] -> results_in b out = [].
Proof.
  intros out. induction out as [|o out IH]; intros H; auto. cbn [filter] in H. unfold results_in in *. cbn [flat_map]. destruct o as [|e| | |]; try (now apply IH).
  destruct e; try (now apply IH); discriminate.
Qed.
Lemma late_results : forall out, Forall (fun e => BredrRemote.late_event e = true) (BredrRemote.events_of out) -> results_in b out = [].
Proof.
  intros out. induction out as [|o out IH]; intros H; auto. unfold results_in, BredrRemote.events_of in *. cbn [flat_map] in *. destruct o as [|e| | |]; try (now apply IH).
  inversion H as [|? ? H1 H2]; subst. destruct e; try (now apply IH); discriminate.
Qed.
(** What the left one reports of a packet *)
Lemma reported : forall now rssi p s s' st out, address s = a -> unmasked s 0x02 = true -> unmasked s 0x22 = true -> addressed a p = true ->
  step order1 cfg1 now s (Receive rssi p) = Ok (s', st, out) -> results_in b out = by_answer b p.
Proof.
  intros now rssi p s s' st out AS U1 U2 AD E. cbn [step] in E. unbind E. injection E as <- <- <-. unfold receive in E0.
  assert (FM : for_me p s = true) by (unfold for_me; now rewrite AS). rewrite FM in E0. destruct (is_reply p) eqn:R.
  - destruct (reply_events order1 cfg1 _ _ _ _ _ _ R E0) as (_ & mode & rep & c & off & r & d & CO & ->). unfold by_answer. rewrite CO.
    destruct (BredrRemote.heard_same now (source p) s) as (t & HE). rewrite HE. unfold receive_inquiry_answer, said.
    change (unmasked (with_acls t s)) with (unmasked s). rewrite U1, U2. unfold results_in.
    destruct (list_eqb (source p) b) eqn:SB.
    + apply list_eqb_eq in SB. rewrite SB. destruct (mode =? 0); [cbn; now rewrite list_eqb_refl|]. destruct (mode =? 1); [cbn; now rewrite list_eqb_refl|].
      destruct (mode =? 2); [cbn; now rewrite list_eqb_refl|reflexivity].
    + destruct (mode =? 0); [cbn; now rewrite SB|]. destruct (mode =? 1); [cbn; now rewrite SB|]. destruct (mode =? 2); [cbn; now rewrite SB|reflexivity].
  - rewrite (no_search_results _ (dispatch_searches order1 cfg1 _ _ _ _ _ _ R E0)). unfold by_answer. unfold is_reply in R. now destruct (content p).
Qed.
(** What the right one answers to a packet *)
Lemma answered : forall rssi p s, address s = b -> inquiry_scan_enable s = visible -> iac s = codes -> class s = cls -> eir s = data ->
  addressed b p = true -> (is_inquiry p = true -> source p = a) ->
  answers_of (filter (addressed a) (BredrRoles.pk (jobs_of order2 cfg2 (Receive rssi p) s))) = flat_map (answer b visible codes cls data) (hears_inquiry a (Entry 0 (Receive rssi p) None [])).
Proof.
  intros rssi p s AS V IA CL EI AD SO. cbn [jobs_of]. assert (FM : for_me p s = true) by (unfold for_me; now rewrite AS). rewrite FM. unfold hears_inquiry. cbn [what].
  destruct (is_inquiry p) eqn:Q.
  - rewrite (SO eq_refl), list_eqb_refl. cbn [andb flat_map]. rewrite app_nil_r. unfold answer. cbn [fst snd]. unfold is_inquiry in Q. unfold jobs_of_packet. cbv zeta.
    destruct (content p) eqn:CO; try discriminate Q. rewrite V, IA. destruct (visible && _); [|reflexivity].
    rewrite (SO eq_refl). unfold found, to. rewrite AS, CL, EI.
    assert (AA : forall x, addressed a (Air b a x) = true) by (intros x; unfold addressed; cbn [destination]; now rewrite list_eqb_refl, Bool.orb_true_r).
    destruct (mode =? 0) eqn:M0; [|destruct (mode =? 1) eqn:M1; [|destruct (mode =? 2) eqn:M2; [|reflexivity]]]; cbn [BredrRoles.pk flat_map packet_of app filter]; rewrite AA; cbn; rewrite list_eqb_refl; reflexivity.
  - rewrite Bool.andb_false_r. cbn [flat_map]. apply answers_filter_none. unfold is_inquiry in Q.
    assert (S : BredrRoles.sends (fun q => is_reply q = false) (jobs_of_packet order2 cfg2 rssi p s)).
    { unfold jobs_of_packet. cbv zeta. destruct (content p); try discriminate Q; BredrRoles.sending reflexivity. }
    exact S.
Qed.
Lemma own_answers : forall o s, match o with Receive _ _ => False | _ => True end -> answers_of (filter (addressed a) (BredrRoles.pk (jobs_of order2 cfg2 o s))) = [].
Proof.
  intros o s NR. apply answers_filter_none. assert (S : BredrRoles.sends (fun q => is_reply q = false) (jobs_of order2 cfg2 o s)); [|exact S].
  destruct o as [c|h pb bc d|h d|rssi p|]; try contradiction; cbn [jobs_of]; try solve [BredrRoles.sending reflexivity].
  destruct c; cbn [jobs_of_command]; cbv zeta; unfold jobs_disconnect, jobs_accept, jobs_ask, jobs_setup, jobs_accept_sync; BredrRoles.sending reflexivity.
Qed.
(** The answers to others are for them *)
Lemma foreign_answers : forall rssi p s, source p <> a -> source p <> empty_address -> answers_of (filter (addressed a) (BredrRoles.pk (jobs_of order2 cfg2 (Receive rssi p) s))) = [].
Proof.
  intros rssi p s F1 F2. cbn [jobs_of]. destruct (for_me p s); [|reflexivity].
  assert (S : BredrRoles.sends (fun q => is_reply q = false \/ destination q = source p) (jobs_of_packet order2 cfg2 rssi p s)).
  { unfold jobs_of_packet. cbv zeta. destruct (content p); BredrRoles.sending ltac:(first [left; reflexivity|right; reflexivity]). }
  apply answers_none. intros q I. apply filter_In in I. destruct I as (I & AD). destruct (S q I) as [X|X]; auto. exfalso. unfold addressed in AD. rewrite X in AD.
  now rewrite (BredrRemote.eqb_false _ _ F1), (BredrRemote.eqb_false _ _ F2) in AD.
Qed.
Lemma made_answers : forall S l, Forall (made_packet S) l -> answers_of (filter (addressed a) l) = [].
Proof.
  intros S l F. apply answers_filter_none. intros p I. rewrite Forall_forall in F. specialize (F p I). unfold made_packet, made in F. unfold is_reply. now destruct (content p).
Qed.

Theorem results_accounted : forall hl hr w0 nl nr w, meanwhile order1 order2 cfg1 cfg2 a b sight hl hr w0 nl nr w ->
  results b nl ++ to_be_told a b w = to_be_told a b w0 ++ flat_map (answer b visible codes cls data) (inquiries_heard a nr).
Proof.
  intros hl hr w0 nl nr w M. unfold to_be_told. fold (answers_of (way_left a w)). fold (answers_of (way_left a w0)).
  induction M as [R H|nl nr w e w' M IH MV T KW|nl nr w e w' M IH MV T KW].
  - cbn. now rewrite app_nil_r.
  - destruct (meanwhile_reaches _ _ _ _ _ _ _ _ _ _ _ _ _ M) as (R & (_ & _ & _ & _ & U1 & U2)).
    destruct (reach_histories _ _ _ _ _ _ any1 any2 _ _ _ R) as (H1 & _ & _ & _ & A1 & _).
    destruct (left_way _ _ _ _ _ _ any1 any2 _ _ _ _ _ R MV T) as (_ & _ & (st & out & ST & SE & SO) & HE).
    rewrite results_cons, SE, <- IH, <- app_assoc. f_equal.
    destruct HE as [(F & ->)|(rssi & p & W & WL)].
    + assert (Z : results_in b out = []); [|now rewrite Z].
      destruct (what e) as [c|x pb bc d|x d|rssi p|] eqn:W.
      * apply late_results. rewrite (BredrRemote.own_silent order1 cfg1 (at_time e) (left w) (Command c) _ _ _ Logic.I ST). constructor.
      * apply late_results. rewrite (BredrRemote.own_silent order1 cfg1 (at_time e) (left w) (AclFromHost x pb bc d) _ _ _ Logic.I ST). constructor.
      * apply late_results. rewrite (BredrRemote.own_silent order1 cfg1 (at_time e) (left w) (ScoFromHost x d) _ _ _ Logic.I ST). constructor.
      * destruct (addressed a p) eqn:AD.
        -- rewrite (reported _ _ _ _ _ _ _ A1 U1 U2 AD ST). unfold by_answer. destruct (content p); auto. now rewrite (BredrRemote.eqb_false _ _ (proj1 F)).
        -- cbn [step] in ST. unbind ST. injection ST as -> <- <-. unfold receive in E.
           assert (FM : for_me p (left w) = false) by (unfold for_me; rewrite A1; exact AD). rewrite FM in E. now injection E as _ <-.
      * apply late_results. assert (TT : timely (Entry (at_time e) Tick st out :: nl ++ hl)) by (destruct e; cbn in *; subst; exact T).
        eapply (BredrRemote.tick_late order1 cfg1 any1); [exact H1|exact TT|exact ST].
    + rewrite W in ST. assert (AD : addressed a p = true).
      { destruct (left_addressed _ _ _ R) as (_ & LA). unfold way_left in WL. rewrite Forall_forall in LA.
        assert (I : In p (to_left w ++ filter (addressed a) (air_of (right w)))) by (rewrite WL; now left).
        apply in_app_or in I. destruct I as [I|I]; [now apply LA|now apply filter_In in I]. }
      rewrite (reported _ _ _ _ _ _ _ A1 U1 U2 AD ST), WL. reflexivity.
  - destruct (meanwhile_reaches _ _ _ _ _ _ _ _ _ _ _ _ _ M) as (R & (V & IA & CL & EI & _)).
    destruct (reach_histories _ _ _ _ _ _ any1 any2 _ _ _ R) as (_ & H2 & _ & _ & _ & A2).
    destruct (right_way _ _ _ _ _ _ any1 any2 _ _ _ _ _ R MV T) as (_ & (extra & WL & AD) & (st & out & ST & SE & SO) & HE).
    rewrite heard_cons, flat_map_app, WL, answers_app, !app_assoc, IH. f_equal.
    destruct HE as [(F & WR)|(rssi & p & W & WR)].
    + assert (Z : hears_inquiry a e = []). { unfold hears_inquiry. destruct (what e); auto. destruct F as (F & _). now rewrite (BredrRemote.eqb_false _ _ F). }
      rewrite Z. destruct AD as [(NT & ->)|(TK & G)]; [|eapply made_answers; eauto].
      destruct (what e) as [c|x pb bc d|x d|rssi p|] eqn:W; try congruence; try (apply own_answers; exact Logic.I). apply foreign_answers; apply F.
    + rewrite W in AD. destruct AD as [(_ & ->)|(X & _)]; [|discriminate].
      assert (IP : In p (way_right b w)) by (rewrite WR; now left). unfold way_right in IP.
      assert (AP : addressed b p = true). { destruct (left_addressed _ _ _ R) as (RA & _). rewrite Forall_forall in RA. apply in_app_or in IP. destruct IP as [I|I]; [now apply RA|now apply filter_In in I]. }
      assert (SP : is_inquiry p = true -> source p = a).
      { intros Q. pose proof (inquiries_arrive _ _ _ R) as AR. assert (I : In p (map (probe_packet a) (probes (nl ++ hl)))).
        { rewrite <- AR. apply in_or_app. right. unfold still_asked. apply filter_In. split; auto. }
        apply in_map_iff in I. destruct I as (q & <- & _). reflexivity. }
      change (flat_map packet_of ?l) with (BredrRoles.pk l). rewrite (answered _ _ _ A2 V IA CL EI AP SP). unfold hears_inquiry. rewrite W. reflexivity.
Qed.
(** From a quiet moment to another one: the results are the answers to the packets of the inquiries *)
Theorem found_exactly : forall hl hr w0 nl nr w, meanwhile order1 order2 cfg1 cfg2 a b sight hl hr w0 nl nr w ->
  still_asked b w0 = [] -> to_be_told a b w0 = [] -> still_asked b w = [] -> to_be_told a b w = [] ->
  map (probe_packet a) (probes (nl ++ hl)) = map (probe_packet a) (probes hl) ++ map snd (inquiries_heard a nr) /\
  results b nl = flat_map (answer b visible codes cls data) (inquiries_heard a nr).
Proof.
  intros hl hr w0 nl nr w M S0 T0 S T. pose proof (results_accounted _ _ _ _ _ _ M) as RA. rewrite T, T0, app_nil_r in RA. split; [|exact RA].
  destruct (meanwhile_reaches _ _ _ _ _ _ _ _ _ _ _ _ _ M) as (R & _). rewrite <- (inquiries_arrive _ _ _ R), S, app_nil_r.
  assert (R0 : reaches order1 order2 cfg1 cfg2 a b hl hr w0) by (clear - M; induction M; auto).
  rewrite <- (inquiries_arrive _ _ _ R0), S0, app_nil_r, <- map_app. f_equal. unfold inquiries_heard. now rewrite rev_app_distr, flat_map_app.
Qed.
End Pair.
