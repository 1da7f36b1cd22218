(** Two BR/EDR controllers: what is on its way between them. *)
From Coq Require Import Permutation.
From Verif Require Import Prelude Table Sco Bredr BredrBase BredrInv BredrConn BredrSpec BredrRefine BredrTime BredrFrame BredrData BredrFlow BredrPairSpec.
Open Scope N_scope.

(** * The packets of the jobs *)
Definition packet_of (j : job) : list air := match j with Transmit p => [p] | _ => [] end.
Lemma air_pending : forall s, air_of s = flat_map packet_of (pending s).
Proof.
  intros s. unfold air_of, pending. induction (queue s) as [|t q IH]; auto. cbn [flat_map map filter]. rewrite IH. unfold packet_of at 2. destruct (what_to_do t); reflexivity.
Qed.
Definition made_packet (S : Prop) (p : air) : Prop := made S (Transmit p).

Section One.
Variable order : table sco_link -> table sco_link.
Variable cfg : config.
Hypothesis any_order : forall t, Permutation (order t) t.

Lemma no_sent_said : forall s c e, packets (said s c e) = [].
Proof. intros s c e. unfold said. now destruct (unmasked s c). Qed.
Lemma packets_app : forall x y, packets (x ++ y) = packets x ++ packets y.
Proof. intros. apply flat_map_app. Qed.
Lemma dispatch_silent : forall now rssi p s s' out, dispatch order cfg now rssi p s = Ok (s', out) -> packets out = [].
Proof.
  intros now rssi p s s' out H. unfold dispatch in H.
  assert (ABOUT : forall a c e, packets (receive_about a c e s) = []). { intros a c e. unfold receive_about. destruct (acl_of a s) as [[h d]|]; [apply no_sent_said|reflexivity]. }
  destruct (content p); unfold silent, answering in H;
    try (injection H as <- <-; reflexivity);
    try (injection H as <- <-; apply no_sent_said);
    try (injection H as <- <-; apply ABOUT).
  - injection H as <- <-. unfold receive_acl. destruct (acl_of _ _) as [[h c]|]; reflexivity.
  - injection H as <- <-. unfold receive_voice. destruct (sco_of _ _ _) as [[h c]|]; reflexivity.
  - unbind H. now injection H as <- <-.
  - injection H as <- <-. unfold receive_inquiry_answer.
    destruct (mode =? 0); [apply no_sent_said|]. destruct (mode =? 1); [apply no_sent_said|]. destruct (mode =? 2); reflexivity.
  - injection H as H. unfold receive_page in H. destruct (negb (page_scan_enable s)); [now injection H as <- <-|].
    destruct (negb _); [now injection H as <- <-|]. destruct (has_acl_with _ s); [now injection H as <- <-|]. destruct (page_scan s); now injection H as <- <-.
  - unfold receive_page_response in H. destruct (paging (source p) s); [|now injection H as <- <-]. unbind H. injection H as <- <-.
    rewrite packets_app, no_sent_said, app_nil_r. match goal with |- context [if role_eqb ?x ?y then _ else _] => destruct (role_eqb x y) end; [apply no_sent_said|reflexivity].
  - injection H as H. unfold receive_page_reject in H. destruct (paging (source p) s); injection H as <- <-; [apply no_sent_said|reflexivity].
  - unbind H. now injection H as <- <-.
  - unfold receive_sco_request in H. destruct (has_pending_sco order (source p) s); [now injection H as <- <-|]. unbind H. now injection H as <- <-.
  - unfold receive_sco_response in H. destruct (sco_of order (source p) s) as [[h c]|]; [|now injection H as <- <-]. destruct (st =? SUCCESS).
    + unbind H. injection H as <- <-. now destruct (sco_legacy c).
    + no_stream H. injection H as <- <-. now destruct (sco_legacy c).
Qed.
Lemma command_silent : forall now s c st s' out, run_command order cfg now s c = Ok (st, s', out) -> packets out = [].
Proof.
  intros now s c st s' out H. destruct c; cbn [run_command] in H; unfold quiet in H;
    try (injection H as <- <- <-; reflexivity);
    try (unbind H; injection H as <- <- <-; reflexivity).
  - destruct (enhanced_ok p e); [|now injection H as <- <- <-]. unbind H. now injection H as <- <- <-.
  - destruct (enhanced_ok p e); [|now injection H as <- <- <-]. unbind H. now injection H as <- <- <-.
  - destruct (lookup (acls s) h); now injection H as <- <- <-.
  - destruct (7 <? n); now injection H as <- <- <-.
Qed.
Lemma step_silent : forall now s o s' st out, o <> Tick -> step order cfg now s o = Ok (s', st, out) -> packets out = [].
Proof.
  intros now s o s' st out NT H. destruct o as [c|h pb bc d|h d|rssi p|]; cbn [step] in H; unbind H; try (injection H as <- <- <-); try reflexivity.
  - eapply command_silent; eassumption.
  - unfold receive in E. destruct (for_me p s); [|now injection E as <- <-]. eapply dispatch_silent; eassumption.
  - congruence.
Qed.
Lemma outcome_packets : forall s l, packets (flat_map (outcome s) l) = flat_map packet_of l.
Proof.
  intros s. induction l as [|j l IH]; auto. cbn [flat_map]. rewrite packets_app, IH. f_equal. destruct j; try reflexivity; apply no_sent_said.
Qed.

(** What a step sends and leaves to be sent *)
Definition adds_packets (o : op) (s : bredr) (extra : list air) : Prop :=
  (o <> Tick /\ extra = flat_map packet_of (jobs_of order cfg o s)) \/ (o = Tick /\ Forall (made_packet (streaming s)) extra).
Theorem step_packets : forall h s now o s' st out, history order cfg h s -> timely (Entry now o st out :: h) -> step order cfg now s o = Ok (s', st, out) ->
  exists extra, packets out ++ air_of s' = air_of s ++ extra /\ adds_packets o s extra.
Proof.
  intros h s now o s' st out H T E. assert (TK : o = Tick \/ o <> Tick) by (destruct o; auto; right; discriminate). destruct TK as [->|NT].
  - destruct (history_tick order cfg any_order _ _ _ _ _ _ H T E) as (s1 & OUT & _ & _ & MD). exists (air_of s'). split.
    + f_equal. rewrite OUT, !packets_app, outcome_packets, air_pending.
      assert (P1 : packets (snd (do_paging now s1)) = []). { unfold do_paging. destruct (page s1); auto. destruct (_ <=? _); auto. now destruct (_ && _). }
      assert (P2 : forall x, packets (snd (do_inquiry now x)) = []). { intros x. unfold do_inquiry. destruct (inquiry x); auto. destruct (_ <=? _); [apply no_sent_said|]. now destruct (_ <=? _). }
      now rewrite P1, P2, !app_nil_r.
    + right. split; auto. rewrite air_pending. apply Forall_forall. intros p I. apply in_flat_map in I. destruct I as (j & I & J).
      specialize (MD j I). destruct j; cbn [packet_of] in J; try contradiction. destruct J as [<-|[]]. exact MD.
  - exists (flat_map packet_of (jobs_of order cfg o s)). split; [|left; auto]. rewrite (step_silent _ _ _ _ _ _ NT E). cbn [app]. rewrite !air_pending.
    rewrite (history_gains order cfg any_order _ _ _ _ _ _ _ H T NT E). apply flat_map_app.
Qed.
Lemma address_fold : forall (T : Type) (f : bredr -> T -> bredr) l s, (forall x e, address (f x e) = address x) -> address (fold_left f l s) = address s.
Proof. intros T f l. induction l as [|e l IH]; intros s H; auto. cbn [fold_left]. rewrite IH; auto. Qed.
Lemma address_reset : forall now s, address (reset order now s) = address s.
Proof.
  intros now s. unfold reset, disconnect_all. cbn [address with_next_id with_queue new_bredr].
  rewrite address_fold by (intros x e; unfold stop_stream; destruct (sco_stream (snd e)); reflexivity).
  rewrite address_fold by reflexivity. now rewrite address_fold by reflexivity.
Qed.
Lemma history_address : forall h s, history order cfg h s -> forall now o s' st out, step order cfg now s o = Ok (s', st, out) -> address s' = address s.
Proof.
  intros h s H now o s' st out E. pose proof (core_history order cfg any_order _ _ H) as C.
  assert (K : (forall c, o = Command c -> sets c = false) -> address s' = address s).
  { intros K. pose proof (step_settings order cfg now s o s' st out C K E) as X. unfold settings in X. now injection X. }
  destruct o as [c| | | |]; try (apply K; discriminate). destruct (sets c) eqn:S; [|apply K; now intros ? [= <-]].
  clear K. destruct c; try discriminate S; cbn [step run_command bind] in E; try (injection E as <- <- <-; reflexivity); [|injection E as <- <- <-; apply address_reset].
  match type of E with context [if ?x then _ else _] => destruct x end; cbn [bind] in E; injection E as <- <- <-; reflexivity.
Qed.
End One.

Section Pair.
Variables (order1 order2 : table sco_link -> table sco_link) (cfg1 cfg2 : config) (a b : addr).
Hypothesis any1 : forall t, Permutation (order1 t) t.
Hypothesis any2 : forall t, Permutation (order2 t) t.
Let reach := reaches order1 order2 cfg1 cfg2 a b.
Let move := moves order1 order2 cfg1 cfg2 a b.

Lemma reach_histories : forall hl hr w, reach hl hr w ->
  history order1 cfg1 hl (left w) /\ history order2 cfg2 hr (right w) /\ timely hl /\ timely hr /\ address (left w) = a /\ address (right w) = b.
Proof.
  intros hl hr w R. induction R as [|hl hr w e w' R (H1 & H2 & T1 & T2 & A1 & A2) M T|hl hr w e w' R (H1 & H2 & T1 & T2 & A1 & A2) M T].
  - repeat split; try apply power_on.
  - inversion M; subst e w'; cbn [left right]; (split; [eapply next_step; eassumption|]);
      (split; [assumption|]); (split; [assumption|]); (split; [assumption|]); (split; [|assumption]); rewrite <- A1; eapply (history_address order1 cfg1 any1); eassumption.
  - inversion M; subst e w'; cbn [left right]; (split; [assumption|]); (split; [eapply next_step; eassumption|]);
      (split; [assumption|]); (split; [assumption|]); (split; [assumption|]); rewrite <- A2; eapply (history_address order2 cfg2 any2); eassumption.
Qed.

(** How an operation of the left one changes what is on its way *)
Theorem left_way : forall hl hr w e w', reach hl hr w -> move w Left e w' -> timely (e :: hl) ->
  right w' = right w /\
  (exists extra, way_right b w' = way_right b w ++ filter (addressed b) extra /\ adds_packets order1 cfg1 (what e) (left w) extra) /\
  (exists st out, step order1 cfg1 (at_time e) (left w) (what e) = Ok (left w', st, out) /\ sent e = out /\ status_of e = st) /\
  ((foreign b (what e) /\ way_left a w' = way_left a w) \/ (exists rssi p, what e = Receive rssi p /\ way_left a w = p :: way_left a w')).
Proof.
  intros hl hr w e w' R M T. destruct (reach_histories _ _ _ R) as (H1 & _).
  inversion M as [now o s st out F E|now rssi p l s st out TL E| |]; subst.
  - split; auto. split; [|split; [exists st, out; auto|left; split; auto]].
    destruct (step_packets order1 cfg1 any1 _ _ _ _ _ _ _ H1 T E) as (extra & EQ & AD). exists extra. split; auto.
    unfold way_right. cbn [to_right left what]. rewrite <- !app_assoc. f_equal. rewrite <- !filter_app, EQ. reflexivity.
  - split; auto. split; [|split; [exists st, out; auto|right; exists rssi, p; split; auto]].
    + destruct (step_packets order1 cfg1 any1 _ _ _ _ _ _ _ H1 T E) as (extra & EQ & AD). exists extra. split; auto.
      unfold way_right. cbn [to_right left what]. rewrite <- !app_assoc. f_equal. rewrite <- !filter_app, EQ. reflexivity.
    + unfold way_left. rewrite TL. reflexivity.
Qed.
End Pair.

Lemma flip_moves : forall o1 o2 c1 c2 a b w d e w', moves o1 o2 c1 c2 a b w d e w' -> moves o2 o1 c2 c1 b a (flip w) (match d with Left => Right | Right => Left end) e (flip w').
Proof.
  intros o1 o2 c1 c2 a b w d e w' M. inversion M; subst; unfold flip; cbn [left right to_left to_right].
  - now apply right_acts with (w := World (right w) (left w) (to_left w) (to_right w)).
  - now apply right_hears with (w := World (right w) (left w) (to_left w) (to_right w)).
  - now apply left_acts with (w := World (right w) (left w) (to_left w) (to_right w)).
  - now apply left_hears with (w := World (right w) (left w) (to_left w) (to_right w)).
Qed.
Lemma flip_reaches : forall o1 o2 c1 c2 a b hl hr w, reaches o1 o2 c1 c2 a b hl hr w -> reaches o2 o1 c2 c1 b a hr hl (flip w).
Proof.
  intros o1 o2 c1 c2 a b hl hr w R. induction R as [|hl hr w e w' R IH M T|hl hr w e w' R IH M T].
  - apply together.
  - eapply right_moves; [exact IH|apply (flip_moves _ _ _ _ _ _ _ _ _ _ M)|exact T].
  - eapply left_moves; [exact IH|apply (flip_moves _ _ _ _ _ _ _ _ _ _ M)|exact T].
Qed.

Section Pair2.
Variables (order1 order2 : table sco_link -> table sco_link) (cfg1 cfg2 : config) (a b : addr).
Hypothesis any1 : forall t, Permutation (order1 t) t.
Hypothesis any2 : forall t, Permutation (order2 t) t.

Theorem right_way : forall hl hr w e w', reaches order1 order2 cfg1 cfg2 a b hl hr w -> moves order1 order2 cfg1 cfg2 a b w Right e w' -> timely (e :: hr) ->
  left w' = left w /\
  (exists extra, way_left a w' = way_left a w ++ filter (addressed a) extra /\ adds_packets order2 cfg2 (what e) (right w) extra) /\
  (exists st out, step order2 cfg2 (at_time e) (right w) (what e) = Ok (right w', st, out) /\ sent e = out /\ status_of e = st) /\
  ((foreign a (what e) /\ way_right b w' = way_right b w) \/ (exists rssi p, what e = Receive rssi p /\ way_right b w = p :: way_right b w')).
Proof.
  intros hl hr w e w' R M T. exact (left_way order2 order1 cfg2 cfg1 b a any2 any1 hr hl (flip w) e (flip w') (flip_reaches _ _ _ _ _ _ _ _ _ R) (flip_moves _ _ _ _ _ _ _ _ _ _ M) T).
Qed.
Lemma meanwhile_reaches : forall K hl hr w0 nl nr w, meanwhile order1 order2 cfg1 cfg2 a b K hl hr w0 nl nr w -> reaches order1 order2 cfg1 cfg2 a b (nl ++ hl) (nr ++ hr) w /\ K w.
Proof.
  intros K hl hr w0 nl nr w M. induction M as [R H|nl nr w e w' M (R & H) MV T KW|nl nr w e w' M (R & H) MV T KW]; auto; (split; [|exact KW]).
  - eapply left_moves; eassumption.
  - eapply right_moves; eassumption.
Qed.
End Pair2.
