(** The roles of the two ends of a link stay opposite. *)
From Coq Require Import Permutation.
From Verif Require Import Prelude Table Sco Bredr BredrBase BredrInv BredrConn BredrSpec BredrRefine BredrTime BredrFrame BredrData BredrFlow BredrPairSpec BredrPair BredrRole BredrRoleSpec.
From Verif Require BredrRemote.
Open Scope N_scope.

(** * The packets of each operation *)
Definition pk (js : list job) : list air := flat_map packet_of js.
Definition sends (Q : air -> Prop) (js : list job) : Prop := forall p, In p (pk js) -> Q p.
Section Sends.
Variable Q : air -> Prop.
Lemma sends_app : forall x y, sends Q x -> sends Q y -> sends Q (x ++ y).
Proof. intros x y A B p I. unfold pk in I. rewrite flat_map_app in I. apply in_app_or in I. destruct I; auto. Qed.
Lemma sends_nil : sends Q [].
Proof. intros p []. Qed.
Lemma sends_cons : forall j l, match j with Transmit p => Q p | _ => True end -> sends Q l -> sends Q (j :: l).
Proof. intros j l A B p I. cbn [pk flat_map] in I. apply in_app_or in I. destruct I as [I|I]; [|now apply B]. destruct j; cbn in I; try contradiction. destruct I as [<-|[]]. exact A. Qed.
Lemma sends_when : forall s c e, sends Q (when_unmasked s c e).
Proof. intros s c e p I. unfold when_unmasked in I. now destruct (unmasked s c). Qed.
Lemma sends_ended : forall s h r, sends Q (ended s h r).
Proof. intros s h r p I. unfold ended in I. now destruct (unmasked s 5). Qed.
Lemma sends_map : forall (T : Type) (f : T -> job) l, (forall x, match f x with Transmit p => Q p | _ => True end) -> sends Q (map f l).
Proof. intros T f l H. induction l as [|x l IH]; [apply sends_nil|]. apply sends_cons; [apply H|exact IH]. Qed.
End Sends.
Ltac sending tac := repeat first
  [ match goal with |- sends _ [] => apply sends_nil end
  | match goal with |- sends _ (ended _ _ _) => apply sends_ended end
  | match goal with |- sends _ (when_unmasked _ _ _) => apply sends_when end
  | match goal with |- sends _ (_ ++ _) => apply sends_app end
  | match goal with |- sends _ (map _ _) => apply sends_map; intros ? end
  | match goal with |- sends _ (_ :: _) => apply sends_cons; [try exact Logic.I|] end
  | match goal with |- sends _ (match ?x with _ => _ end) => destruct x eqn:? end
  | match goal with |- sends _ (if ?x then _ else _) => destruct x eqn:? end
  | match goal with |- sends _ _ => fail 1 | |- _ => tac end ].

Section One.
Variable order : table sco_link -> table sco_link.
Variable cfg : config.
Definition responds (p : air) : bool := match content p with SwitchResponse _ => true | _ => false end.
(** A packet about roles comes from the sender itself, and an answer answers a request *)
Definition role_packet (o : op) (s : bredr) (q : air) : Prop :=
  switching q = true -> source q = address s /\
    (responds q = true -> exists rssi p, o = Receive rssi p /\ content p = SwitchRequest /\ destination q = source p).
Lemma role_packets : forall o s, sends (role_packet o s) (jobs_of order cfg o s).
Proof.
  assert (TAC : forall o s q, switching q = false -> role_packet o s q) by (intros o s q E X; congruence).
  intros o s. destruct o as [c|h pb bc d|h d|rssi p|]; cbn [jobs_of].
  - destruct c; cbn [jobs_of_command]; cbv zeta; unfold jobs_disconnect, jobs_accept, jobs_setup, jobs_accept_sync, jobs_ask, to; sending ltac:(apply TAC; reflexivity).
    intros _. cbn. split; [reflexivity|discriminate].
  - unfold to. sending ltac:(apply TAC; reflexivity).
  - unfold to. sending ltac:(apply TAC; reflexivity).
  - destruct (for_me p s); [|apply sends_nil]. unfold jobs_of_packet, to. cbv zeta. destruct (content p) eqn:CO; sending ltac:(apply TAC; reflexivity).
    + intros _. split; [reflexivity|]. intros _. do 2 eexists. split; [reflexivity|]. split; [exact CO|reflexivity].
    + intros _. split; [reflexivity|]. intros _. do 2 eexists. split; [reflexivity|]. split; [exact CO|reflexivity].
  - apply sends_nil.
Qed.
Lemma role_made : forall S l, Forall (made_packet S) l -> forall q, In q l -> switching q = false.
Proof. intros S l F q I. rewrite Forall_forall in F. specialize (F q I). unfold made_packet, made in F. unfold switching. now destruct (content q). Qed.
End One.

(** * Two controllers *)
Definition role_honest (x y : addr) (p : air) : Prop := addressed y p = true /\ (switching p = true -> source p = x).
Section Pair.
Variables (order1 order2 : table sco_link -> table sco_link) (cfg1 cfg2 : config) (a b : addr).
Hypothesis any1 : forall t, Permutation (order1 t) t.
Hypothesis any2 : forall t, Permutation (order2 t) t.
Let reach := reaches order1 order2 cfg1 cfg2 a b.

Lemma extra_honest : forall order cfg o s extra x y, adds_packets order cfg o s extra -> address s = x -> Forall (role_honest x y) (filter (addressed y) extra).
Proof.
  intros order cfg o s extra x y AD A. apply Forall_forall. intros q I. apply filter_In in I. destruct I as (I & D). split; auto. intros SW. destruct AD as [(_ & ->)|(_ & F)].
  - destruct (role_packets order cfg o s q I SW) as (E & _). congruence.
  - rewrite (role_made _ _ F q I) in SW. discriminate.
Qed.
Lemma ways_honest : forall hl hr w, reach hl hr w -> Forall (role_honest a b) (way_right b w) /\ Forall (role_honest b a) (way_left a w).
Proof.
  intros hl hr w R. induction R as [|hl hr w e w' R (I1 & I2) M T|hl hr w e w' R (I1 & I2) M T].
  - split; constructor.
  - destruct (reach_histories _ _ _ _ _ _ any1 any2 _ _ _ R) as (_ & _ & _ & _ & A1 & _).
    destruct (left_way _ _ _ _ _ _ any1 any2 _ _ _ _ _ R M T) as (_ & (extra & WR & AD) & _ & HE). split.
    + rewrite WR. apply Forall_app. split; auto. eapply extra_honest; eauto.
    + destruct HE as [(_ & ->)|(rssi & p & _ & E)]; auto. rewrite E in I2. now inversion I2.
  - destruct (reach_histories _ _ _ _ _ _ any1 any2 _ _ _ R) as (_ & _ & _ & _ & _ & A2).
    destruct (right_way _ _ _ _ _ _ any1 any2 _ _ _ _ _ R M T) as (_ & (extra & WL & AD) & _ & HE). split.
    + destruct HE as [(_ & ->)|(rssi & p & _ & E)]; auto. rewrite E in I1. now inversion I1.
    + rewrite WL. apply Forall_app. split; auto. eapply extra_honest; eauto.
Qed.

(** Whether an operation of the left one makes it change its role, and what it sends then *)
Lemma jobs_request : forall order cfg rssi p s h c, content p = SwitchRequest -> acl_of (source p) s = Some (h, c) -> for_me p s = true ->
  pk (jobs_of order cfg (Receive rssi p) s) = [Air (address s) (source p) (SwitchResponse (if N.testbit (acl_policy c) 0 then SUCCESS else ROLE_NOT_ALLOWED))].
Proof.
  intros order cfg rssi p s h c CO F FM. cbn [jobs_of]. rewrite FM. unfold jobs_of_packet. rewrite CO, F. destruct (N.testbit (acl_policy c) 0); [|reflexivity].
  cbn [pk flat_map]. unfold when_unmasked. now destruct (unmasked s 18).
Qed.
Lemma none_agree : forall l, (forall p, In p l -> agrees p = false) -> filter agrees l = [].
Proof. induction l as [|p l IH]; intros H; auto. cbn [filter]. rewrite H by now left. apply IH. intros q I. apply H. now right. Qed.
Lemma agrees_filter : forall x l, filter agrees (filter (addressed x) l) = filter (addressed x) (filter agrees l).
Proof. intros x l. induction l as [|p l IH]; auto. cbn [filter]. destruct (addressed x p) eqn:A, (agrees p) eqn:B; cbn [filter]; rewrite ?A, ?B, IH; reflexivity. Qed.

Definition parity (w : world) : bool := Nat.even (agreements a b w).
Lemma left_parity : forall hl hr w e w' r r', reach hl hr w -> moves order1 order2 cfg1 cfg2 a b w Left e w' -> timely (e :: hl) ->
  role_with b (left w) = Some r -> role_with b (left w') = Some r' -> r' = (if Bool.eqb (parity w') (parity w) then r else other r).
Proof.
  intros hl hr w e w' r r' R M T RL RL'. unfold role_with in RL, RL'.
  destruct (acl_of b (left w)) as [[k c]|] eqn:F; [|discriminate]. destruct (acl_of b (left w')) as [[k' c']|] eqn:F'; [|discriminate]. injection RL as <-. injection RL' as <-.
  destruct (reach_histories _ _ _ _ _ _ any1 any2 _ _ _ R) as (H1 & _ & _ & _ & A1 & _). destruct (ways_honest _ _ _ R) as (HR & HL).
  destruct (left_way _ _ _ _ _ _ any1 any2 _ _ _ _ _ R M T) as (_ & (extra & WR & AD) & (st & out & ST & _) & HE).
  rewrite (role_step order1 cfg1 any1 _ _ _ _ _ _ _ _ _ _ _ _ H1 ST F F').
  assert (N0 : (forall rssi p, what e = Receive rssi p -> content p <> SwitchRequest \/ source p <> b /\ source p <> empty_address) -> filter agrees (filter (addressed b) extra) = []).
  { intros NR. apply none_agree. intros q I. apply filter_In in I. destruct I as (I & D). destruct (agrees q) eqn:G; auto. exfalso.
    destruct AD as [(_ & ->)|(_ & FM)].
    - destruct (role_packets order1 cfg1 _ _ q I) as (_ & X); [unfold switching; unfold agrees in G; now destruct (content q)|].
      destruct X as (rssi & p & E1 & E2 & E3); [unfold responds; unfold agrees in G; now destruct (content q)|]. destruct (NR rssi p E1) as [Y|(Y1 & Y2)]; try contradiction.
      unfold addressed in D. rewrite E3 in D. apply orb_true_iff in D. destruct D as [D|D]; apply list_eqb_eq in D; contradiction.
    - pose proof (role_made _ _ FM q I) as X. unfold switching in X. unfold agrees in G. now destruct (content q). }
  unfold parity, agreements. rewrite WR, filter_app, app_length.
  destruct HE as [(FO & WL)|(rssi & p & W & WL)].
  - rewrite WL, N0. 2:{ intros rssi p W. rewrite W in FO. right. exact FO. }
    cbn [List.length]. rewrite Nat.add_0_r, eqb_reflx.
    assert (TN : turning (what e) b (left w) c = false).
    { destruct (what e) eqn:W; auto. cbn. destruct (list_eqb (source p) b) eqn:E; [|now rewrite andb_false_r]. apply list_eqb_eq in E. now destruct FO. }
    now rewrite TN.
  - rewrite W in *. cbn [turning]. rewrite WL in HL. inversion HL as [|? ? (FM & HP) HL']. subst x l. cbn [filter]. rewrite WL. cbn [filter].
    rewrite <- A1 in FM. change (for_me p (left w) = true) in FM. rewrite FM. cbn [andb].
    assert (EV : forall n m : nat, Nat.even (S n + m) = negb (Nat.even (n + m))) by (intros n m; cbn [Nat.add]; rewrite Nat.even_succ, <- Nat.negb_even; reflexivity).
    destruct (switching p) eqn:SW.
    + specialize (HP eq_refl). rewrite HP, list_eqb_refl. cbn [andb]. unfold turns. unfold switching in SW. destruct (content p) eqn:CO; try discriminate.
      * (* request *) assert (NA : agrees p = false) by (unfold agrees; now rewrite CO). rewrite NA. destruct AD as [(_ & ->)|(X & _)]; [|discriminate]. rewrite <- HP in F. fold (pk (jobs_of order1 cfg1 (Receive rssi p) (left w))).
        rewrite (jobs_request _ _ _ _ _ _ _ CO F) by auto. cbn [filter]. unfold addressed. cbn [destination]. rewrite HP, list_eqb_refl, orb_true_r. cbn [filter].
        destruct (N.testbit (acl_policy c) 0) eqn:PB; unfold agrees at 2; cbn [content]; [change (SUCCESS =? SUCCESS) with true|change (ROLE_NOT_ALLOWED =? SUCCESS) with false]; cbn [List.length].
        -- rewrite Nat.add_1_r, Nat.add_succ_r. change (S (?x + ?y)) with (S x + y)%nat. rewrite EV. now destruct (Nat.even _).
        -- now rewrite Nat.add_0_r, eqb_reflx.
      * (* response *) rewrite N0. 2:{ intros rssi' p' [= <- <-]. left. congruence. }
        cbn [List.length]. rewrite Nat.add_0_r. unfold agrees at 1 3. rewrite CO. destruct (st0 =? SUCCESS) eqn:SU; [|now rewrite eqb_reflx].
        cbn [List.length]. rewrite EV. now destruct (Nat.even _).
    + rewrite N0. 2:{ intros rssi' p' [= <- <-]. left. unfold switching in SW. destruct (content p); congruence. }
      assert (NA : agrees p = false) by (unfold agrees; unfold switching in SW; now destruct (content p)). rewrite NA. cbn [List.length]. rewrite Nat.add_0_r, eqb_reflx.
      assert (NT : turns p c = false) by (unfold turns; unfold switching in SW; now destruct (content p)). now rewrite NT, andb_false_r.
Qed.
End Pair.

Section Parity.
Variables (order1 order2 : table sco_link -> table sco_link) (cfg1 cfg2 : config) (a b : addr).
Hypothesis any1 : forall t, Permutation (order1 t) t.
Hypothesis any2 : forall t, Permutation (order2 t) t.
Lemma right_parity : forall hl hr w e w' r r', reaches order1 order2 cfg1 cfg2 a b hl hr w -> moves order1 order2 cfg1 cfg2 a b w Right e w' -> timely (e :: hr) ->
  role_with a (right w) = Some r -> role_with a (right w') = Some r' -> r' = (if Bool.eqb (parity a b w') (parity a b w) then r else other r).
Proof.
  intros hl hr w e w' r r' R M T E E'. rewrite (left_parity order2 order1 cfg2 cfg1 b a any2 any1 hr hl (flip w) e (flip w') r r' (flip_reaches _ _ _ _ _ _ _ _ _ R) (flip_moves _ _ _ _ _ _ _ _ _ _ M) T E E').
  assert (X : forall x, parity b a (flip x) = parity a b x). { intros x. unfold parity, agreements. rewrite Nat.add_comm. reflexivity. }
  now rewrite !X.
Qed.
Theorem roles_opposite : forall hl hr w0 nl nr w, meanwhile order1 order2 cfg1 cfg2 a b (joined a b) hl hr w0 nl nr w ->
  opposite a b w0 -> agreements a b w0 = 0%nat -> (opposite a b w <-> Nat.even (agreements a b w) = true).
Proof.
  intros hl hr w0 nl nr w M O0 A0.
  assert (G : exists r r', role_with b (left w) = Some r /\ role_with a (right w) = Some r' /\ r' = (if parity a b w then other r else r)).
  { induction M as [R H|nl nr w e w' M IH MV T KW|nl nr w e w' M IH MV T KW].
    - unfold parity. rewrite A0. destruct O0 as [(-> & ->)|(-> & ->)]; do 2 eexists; repeat split.
    - destruct (meanwhile_reaches _ _ _ _ _ _ _ _ _ _ _ _ _ M) as (R & _). destruct IH as (r & r' & E1 & E2 & E3). destruct KW as (K1 & _).
      destruct (role_with b (left w')) as [r1|] eqn:L; [|contradiction]. destruct (left_way _ _ _ _ _ _ any1 any2 _ _ _ _ _ R MV T) as (RR & _). rewrite RR.
      exists r1, r'. split; auto. split; auto. rewrite (left_parity _ _ _ _ _ _ any1 any2 _ _ _ _ _ _ _ R MV T E1 L). subst r'. destruct (parity a b w), (parity a b w'), r; reflexivity.
    - destruct (meanwhile_reaches _ _ _ _ _ _ _ _ _ _ _ _ _ M) as (R & _). destruct IH as (r & r' & E1 & E2 & E3). destruct KW as (_ & K1).
      destruct (role_with a (right w')) as [r1|] eqn:L; [|contradiction]. destruct (right_way _ _ _ _ _ _ any1 any2 _ _ _ _ _ R MV T) as (RR & _). rewrite RR.
      exists r, r1. split; auto. split; auto. rewrite (right_parity _ _ _ _ _ _ _ R MV T E2 L). subst r'. destruct (parity a b w), (parity a b w'), r; reflexivity. }
  destruct G as (r & r' & E1 & E2 & E3). unfold opposite. rewrite E1, E2. fold (parity a b w). subst r'. destruct (parity a b w), r; cbn [other]; split; auto; try discriminate; intros [(X & Y)|(X & Y)]; congruence.
Qed.
End Parity.

(** * What the host on the left is told *)
Section Told.
Variable order : table sco_link -> table sco_link.
Variable cfg : config.
Hypothesis any_order : forall t, Permutation (order t) t.
Variable b : addr.
Definition ro (out : list output) : list (status * role) := flat_map (fun o => match o with Event v => role_event b v | _ => [] end) out.
Definition rj (js : list job) : list (status * role) := flat_map (fun j => match j with Tell v => role_event b v | _ => [] end) js.
Lemma rj_app : forall x y, rj (x ++ y) = rj x ++ rj y.
Proof. intros. apply flat_map_app. Qed.
Lemma ro_app : forall x y, ro (x ++ y) = ro x ++ ro y.
Proof. intros. apply flat_map_app. Qed.
Lemma rj_pending : forall s, roles_to_tell b s = rj (pending s).
Proof.
  intros s. unfold roles_to_tell, rj, pending. induction (queue s) as [|t q IH]; auto. cbn [flat_map map filter]. rewrite IH. destruct (what_to_do t) eqn:W; cbn [prompt flat_map]; reflexivity.
Qed.
Lemma ro_said : forall s c e, role_event b e = [] -> ro (said s c e) = [].
Proof. intros s c e E. unfold said. destruct (unmasked s c); auto. cbn. now rewrite E. Qed.
Lemma ro_tick : forall h s now s' st out, history order cfg h s -> timely (Entry now Tick st out :: h) -> step order cfg now s Tick = Ok (s', st, out) ->
  ro out = roles_to_tell b s /\ roles_to_tell b s' = [].
Proof.
  intros h s now s' st out H T E. destruct (history_tick order cfg any_order _ _ _ _ _ _ H T E) as (s1 & -> & _ & _ & MD). rewrite !ro_app, !rj_pending. split.
  - assert (P1 : ro (snd (do_paging now s1)) = []). { unfold do_paging. destruct (page s1); auto. destruct (_ <=? _); auto. now destruct (_ && _). }
    assert (P2 : forall x, ro (snd (do_inquiry now x)) = []). { intros x. unfold do_inquiry. destruct (inquiry x); auto. destruct (_ <=? _); [now apply ro_said|]. now destruct (_ <=? _). }
    rewrite P1, P2, !app_nil_r. clear. induction (pending s) as [|j l IH]; auto. cbn [flat_map rj]. fold (rj l). rewrite ro_app, IH. f_equal.
    destruct j; cbn [outcome]; try reflexivity; [cbn; now rewrite app_nil_r|now apply ro_said|now apply ro_said].
  - clear - MD. induction (pending s') as [|j l IH]; auto. cbn [rj flat_map]. fold (rj l). rewrite IH by (intros x I; apply MD; now right).
    specialize (MD j (or_introl eq_refl)). destruct j; auto. destruct e; auto. contradiction.
Qed.
Lemma ro_receive : forall h s now rssi p s' st out k c, history order cfg h s -> acl_of b s = Some (k, c) -> step order cfg now s (Receive rssi p) = Ok (s', st, out) -> ro out = [].
Proof.
  intros h s now rssi p s' st out k c H F E. pose proof (core_history order cfg any_order _ _ H) as C0. pose proof (conn_history order cfg any_order _ _ H) as K0.
  cbn [step] in E. unbind E. injection E as <- <- <-. unfold receive in E0. destruct (for_me p s); [|now injection E0 as <- <-]. rename E0 into D.
  assert (C : core (heard_from now (source p) s)) by now apply core_heard. assert (K : conn (heard_from now (source p) s)) by (eapply conn_alike; [now apply heard_alike|exact K0]).
  assert (PB : In b (peers (heard_from now (source p) s))).
  { destruct (heard_alike now (source p) s C0) as (-> & _). destruct (acl_lookup _ _ _ _ C0 F) as (L & <-). apply in_map_iff. exists (k, c). split; auto. now apply lookup_pair. }
  set (s0 := heard_from now (source p) s) in *. clearbody s0. unfold dispatch in D.
  assert (ABOUT : forall a c (e : N -> event), (forall h, role_event b (e h) = []) -> ro (receive_about a c e s0) = []). { intros x y e Z. unfold receive_about. destruct (acl_of x s0) as [[? d]|]; [now apply ro_said|reflexivity]. }
  destruct (content p); unfold silent, answering in D;
    try (injection D as <- <-; reflexivity);
    try (injection D as <- <-; now apply ro_said);
    try (injection D as <- <-; now apply ABOUT).
  - injection D as <- <-. unfold receive_acl. destruct (acl_of _ s0) as [[h0 c0]|]; reflexivity.
  - injection D as <- <-. unfold receive_voice. destruct (sco_of _ _ _) as [[h0 c0]|]; reflexivity.
  - unbind D. now injection D as <- <-.
  - injection D as <- <-. unfold receive_inquiry_answer.
    destruct (mode =? 0); [now apply ro_said|]. destruct (mode =? 1); [now apply ro_said|]. destruct (mode =? 2); reflexivity.
  - injection D as D. unfold receive_page in D. destruct (negb (page_scan_enable s0)); [now injection D as <- <-|].
    destruct (negb _); [now injection D as <- <-|]. destruct (has_acl_with _ s0); [now injection D as <- <-|]. destruct (page_scan s0); now injection D as <- <-.
  - unfold receive_page_response in D. destruct (paging (source p) s0) eqn:PG; [|now injection D as <- <-]. unbind D. injection D as <- <-.
    assert (X : list_eqb (source p) b = false).
    { destruct (list_eqb (source p) b) eqn:X; auto. apply list_eqb_eq in X. unfold paging in PG. destruct (page s0) as [pg|] eqn:G; [|discriminate]. apply list_eqb_eq in PG. elim (conn_page s0 K _ G). now rewrite PG, X. }
    rewrite ro_app, ro_said, app_nil_r by reflexivity. match goal with |- context [if role_eqb ?x ?y then _ else _] => destruct (role_eqb x y) end; [|reflexivity]. apply ro_said. cbn. now rewrite X.
  - injection D as D. unfold receive_page_reject in D. destruct (paging (source p) s0); injection D as <- <-; [now apply ro_said|reflexivity].
  - unbind D. now injection D as <- <-.
  - unfold receive_sco_request in D. destruct (has_pending_sco order (source p) s0); [now injection D as <- <-|]. unbind D. now injection D as <- <-.
  - unfold receive_sco_response in D. destruct (sco_of order (source p) s0) as [[h0 c0]|]; [|now injection D as <- <-]. destruct (st =? SUCCESS).
    + unbind D. injection D as <- <-. now destruct (sco_legacy c0).
    + no_stream D. injection D as <- <-. now destruct (sco_legacy c0).
Qed.
Lemma ro_own : forall now s o s' st out, match o with Receive _ _ | Tick => False | _ => True end -> step order cfg now s o = Ok (s', st, out) -> ro out = [].
Proof.
  intros now s o s' st out NR E. pose proof (BredrRemote.own_silent order cfg now s o s' st out NR E) as X. clear - X. induction out as [|x l IH]; auto.
  cbn [ro flat_map]. destruct x; try (now apply IH). discriminate X.
Qed.

(** The events that an operation leaves to be told *)
Lemma rj_when : forall s c e, unmasked s c = true -> rj (when_unmasked s c e) = role_event b e.
Proof. intros s c e U. unfold when_unmasked. rewrite U. cbn. now rewrite app_nil_r. Qed.
Lemma rj_when_none : forall s c e, role_event b e = [] -> rj (when_unmasked s c e) = [].
Proof. intros s c e U. unfold when_unmasked. destruct (unmasked s c); auto. cbn. now rewrite U. Qed.
Lemma rj_ended : forall s h r, rj (ended s h r) = [].
Proof. intros s h r. unfold ended. now destruct (unmasked s 5). Qed.
Lemma rj_app_nil : forall x y, rj x = [] -> rj y = [] -> rj (x ++ y) = [].
Proof. intros x y E1 E2. now rewrite rj_app, E1, E2. Qed.
Lemma rj_cons_nil : forall j l, match j with Tell v => role_event b v = [] | _ => True end -> rj l = [] -> rj (j :: l) = [].
Proof. intros j l E1 E2. change (rj ([j] ++ l) = []). apply rj_app_nil; auto. destruct j; auto. cbn. now rewrite E1. Qed.
Lemma rj_map_nil : forall (T : Type) (f : T -> job) l, (forall x, match f x with Tell v => role_event b v = [] | _ => True end) -> rj (map f l) = [].
Proof. intros T f l H. induction l as [|x l IH]; auto. cbn [map]. apply rj_cons_nil; auto. apply H. Qed.
Ltac quietly := repeat first
  [ match goal with |- rj [] = [] => reflexivity end
  | match goal with |- rj (ended _ _ _) = [] => apply rj_ended end
  | match goal with |- rj (when_unmasked _ _ _) = [] => apply rj_when_none; try reflexivity end
  | match goal with |- rj (_ ++ _) = [] => apply rj_app_nil end
  | match goal with |- rj (map _ _) = [] => apply rj_map_nil; intros ?; exact Logic.I end
  | match goal with |- rj (_ :: _) = [] => apply rj_cons_nil; [first [exact Logic.I|reflexivity]|] end
  | match goal with |- rj (match ?x with _ => _ end) = [] => destruct x eqn:? end
  | match goal with |- rj (if ?x then _ else _) = [] => destruct x eqn:? end ].
Definition to_be_told (o : op) (s : bredr) (c : acl_link) : list (status * role) :=
  match o with
  | Command (SwitchRole x r) =>
      if list_eqb x b then match sco_of order b s with None => if role_eqb r (acl_role c) then [(ROLE_SWITCH_FAILED, r)] else [] | Some _ => [] end else []
  | Receive _ p =>
      if for_me p s && list_eqb (source p) b then
        match content p with
        | SwitchRequest => if N.testbit (acl_policy c) 0 then [(SUCCESS, other (acl_role c))] else []
        | SwitchResponse st => [(st, if st =? SUCCESS then other (acl_role c) else acl_role c)]
        | _ => []
        end
      else []
  | _ => []
  end.
Lemma rj_jobs : forall o s k c, core s -> acl_of b s = Some (k, c) -> unmasked s 0x12 = true -> rj (jobs_of order cfg o s) = to_be_told o s c.
Proof.
  intros o s k c C F U.
  assert (NE : forall x e, list_eqb x b = false -> role_event b (RoleChange e x CENTRAL) = []) by (intros x e E; cbn; now rewrite E).
  destruct o as [cm|h pb bc d|h d|rssi p|]; cbn [jobs_of to_be_told]; try reflexivity.
  - destruct cm; cbn [jobs_of_command]; cbv zeta; try reflexivity; unfold jobs_disconnect, jobs_accept, jobs_setup, jobs_accept_sync, jobs_ask.
    all: try solve [quietly].
    + (* accept *) quietly. cbn. destruct (list_eqb a b) eqn:E; auto. apply list_eqb_eq in E. subst a.
      assert (X : has_acl_with b s = true) by (unfold has_acl_with; now rewrite F). congruence.
    + (* switch *) destruct (list_eqb a b) eqn:E.
      * apply list_eqb_eq in E. subst a. rewrite F. destruct (sco_of order b s); auto. destruct (role_eqb r (acl_role c)); cbn [negb]; [|reflexivity]. rewrite rj_when by exact U. cbn. now rewrite list_eqb_refl.
      * destruct (acl_of a s) as [[? ?]|]; auto. destruct (sco_of order a s); auto. destruct (negb _); [reflexivity|]. apply rj_when_none. cbn. now rewrite E.
  - quietly.
  - quietly.
  - destruct (for_me p s); [|reflexivity]. cbn [andb]. unfold jobs_of_packet. cbv zeta. destruct (list_eqb (source p) b) eqn:E.
    + apply list_eqb_eq in E. rewrite E. destruct (content p); try solve [quietly].
      * rewrite F. destruct (N.testbit (acl_policy c) 0); [|reflexivity]. change (rj ([to s b (SwitchResponse SUCCESS)] ++ when_unmasked s 18 (RoleChange SUCCESS b (other (acl_role c)))) = [(SUCCESS, other (acl_role c))]).
        rewrite rj_app, rj_when by exact U. cbn. now rewrite list_eqb_refl.
      * rewrite F, rj_when by exact U. cbn. now rewrite list_eqb_refl.
    + destruct (content p); quietly; cbn; now rewrite E.
Qed.
End Told.

Section Account.
Variables (order1 order2 : table sco_link -> table sco_link) (cfg1 cfg2 : config) (a b : addr).
Hypothesis any1 : forall t, Permutation (order1 t) t.
Hypothesis any2 : forall t, Permutation (order2 t) t.
Variable allowed : bool.
Let during := meanwhile order1 order2 cfg1 cfg2 a b (role_steady a b allowed).

Definition all_roles (nl : list entry) (w : world) : list (status * role) := roles_told b nl ++ roles_to_tell b (left w).
Lemma told_one_more : forall e nl, roles_told b (e :: nl) = roles_told b nl ++ ro b (sent e).
Proof. intros e nl. unfold roles_told. cbn [rev]. rewrite flat_map_app. cbn [flat_map]. now rewrite app_nil_r. Qed.
Lemma left_roles : forall hl hr w0 nl nr w e w' k c, during hl hr w0 nl nr w -> moves order1 order2 cfg1 cfg2 a b w Left e w' -> timely (e :: nl ++ hl) -> acl_of b (left w) = Some (k, c) ->
  all_roles (e :: nl) w' = all_roles nl w ++ to_be_told order1 b (what e) (left w) c.
Proof.
  intros hl hr w0 nl nr w e w' k c M MV T F. destruct (meanwhile_reaches _ _ _ _ _ _ _ _ _ _ _ _ _ M) as (R & _ & _ & U & _).
  destruct (reach_histories _ _ _ _ _ _ any1 any2 _ _ _ R) as (H1 & _). pose proof (core_history order1 cfg1 any1 _ _ H1) as C.
  destruct (left_way _ _ _ _ _ _ any1 any2 _ _ _ _ _ R MV T) as (_ & _ & (st & out & ST & SE & SO) & _).
  unfold all_roles. rewrite told_one_more, SE, <- !app_assoc. f_equal.
  assert (TT : timely (Entry (at_time e) (what e) st out :: nl ++ hl)) by (destruct e; cbn in *; subst; exact T).
  assert (TK : what e = Tick \/ what e <> Tick) by (destruct (what e); auto; right; discriminate). destruct TK as [W|W].
  - rewrite W in *. destruct (ro_tick order1 cfg1 any1 b _ _ _ _ _ _ H1 TT ST) as (-> & ->). reflexivity.
  - rewrite (rj_pending b (left w')), (rj_pending b (left w)), (history_gains order1 cfg1 any1 _ _ _ _ _ _ _ H1 TT W ST), rj_app, (rj_jobs order1 cfg1 b _ _ _ _ C F U).
    assert (Z : ro b out = []). { destruct (what e) as [cm|x pb bc d|x d|rssi p|] eqn:WE; try congruence; [| | |eapply (ro_receive order1 cfg1 any1); eassumption]; eapply (ro_own order1 cfg1 b); try exact ST; exact Logic.I. }
    now rewrite Z.
Qed.
Theorem roles_reported : forall hl hr w0 nl nr w r0, during hl hr w0 nl nr w -> role_with b (left w0) = Some r0 -> roles_to_tell b (left w0) = [] ->
  role_with b (left w) = Some (last_role r0 (roles_told b nl ++ roles_to_tell b (left w))).
Proof.
  intros hl hr w0 nl nr w r0 M E0 T0. change (role_with b (left w) = Some (last_role r0 (all_roles nl w))).
  induction M as [R H|nl nr w e w' M IH MV T KW|nl nr w e w' M IH MV T KW].
  - unfold all_roles. rewrite T0. exact E0.
  - destruct (meanwhile_reaches _ _ _ _ _ _ _ _ _ _ _ _ _ M) as (R & _). destruct (reach_histories _ _ _ _ _ _ any1 any2 _ _ _ R) as (H1 & _).
    destruct (left_way _ _ _ _ _ _ any1 any2 _ _ _ _ _ R MV T) as (_ & _ & (st & out & ST & _) & _).
    unfold role_with in IH. destruct (acl_of b (left w)) as [[k c]|] eqn:F; [|discriminate]. injection IH as IH.
    destruct KW as ((KW & _) & _). unfold role_with in *. destruct (acl_of b (left w')) as [[k' c']|] eqn:F'; [|contradiction]. f_equal.
    rewrite (left_roles _ _ _ _ _ _ _ _ _ _ M MV T F), (role_step order1 cfg1 any1 _ _ _ _ _ _ _ _ _ _ _ _ H1 ST F F').
    unfold last_role. rewrite map_app. assert (LS : forall l x, last (l ++ [x]) r0 = x) by (intros l x; apply last_last).
    destruct (what e) as [cm| | |rssi p|]; cbn [to_be_told turning map]; rewrite ?app_nil_r; auto.
    + destruct cm; cbn [map]; rewrite ?app_nil_r; auto. destruct (list_eqb a0 b); cbn [map]; rewrite ?app_nil_r; auto. destruct (sco_of order1 b (left w)); cbn [map]; rewrite ?app_nil_r; auto.
      destruct (role_eqb r (acl_role c)) eqn:RE; cbn [map snd]; rewrite ?app_nil_r; auto. rewrite LS. destruct r, (acl_role c); try discriminate; reflexivity.
    + destruct (for_me p (left w) && list_eqb (source p) b); cbn [map]; rewrite ?app_nil_r; auto. cbn [andb]. unfold turns.
      destruct (content p); cbn [map snd]; rewrite ?app_nil_r, ?LS; auto. destruct (N.testbit (acl_policy c) 0); cbn [map snd]; rewrite ?app_nil_r, ?LS; auto.
  - destruct (meanwhile_reaches _ _ _ _ _ _ _ _ _ _ _ _ _ M) as (R & _). destruct (right_way _ _ _ _ _ _ any1 any2 _ _ _ _ _ R MV T) as (E & _). unfold all_roles in *. now rewrite E.
Qed.

(** ** How many events *)
Definition asks_switch (p : air) : bool := match content p with SwitchRequest => true | _ => false end.
Definition number (f : air -> bool) (l : list air) : nat := List.length (filter f l).
Lemma number_app : forall f x y, number f (x ++ y) = (number f x + number f y)%nat.
Proof. intros. unfold number. now rewrite filter_app, app_length. Qed.
Lemma number_none : forall f l, (forall p, In p l -> f p = false) -> number f l = 0%nat.
Proof. intros f l H. unfold number. induction l as [|p l IH]; auto. cbn [filter]. rewrite H by now left. apply IH. intros q I. apply H. now right. Qed.
Lemma no_answers : forall order cfg o s extra x, adds_packets order cfg o s extra ->
  (forall rssi p, o = Receive rssi p -> content p <> SwitchRequest \/ source p <> x /\ source p <> empty_address) -> number responds (filter (addressed x) extra) = 0%nat.
Proof.
  intros order cfg o s extra x AD NR. apply number_none. intros q I. apply filter_In in I. destruct I as (I & D). destruct (responds q) eqn:G; auto. exfalso.
  destruct AD as [(_ & ->)|(_ & FM)].
  - destruct (role_packets order cfg _ _ q I) as (_ & X); [unfold switching; unfold responds in G; now destruct (content q)|].
    destruct (X G) as (rssi & p & E1 & E2 & E3). destruct (NR rssi p E1) as [Y|(Y1 & Y2)]; try contradiction.
    unfold addressed in D. rewrite E3 in D. apply orb_true_iff in D. destruct D as [D|D]; apply list_eqb_eq in D; contradiction.
  - pose proof (role_made _ _ FM q I) as X. unfold switching in X. unfold responds in G. now destruct (content q).
Qed.
Lemma requests_sent : forall order cfg o s extra k c, adds_packets order cfg o s extra -> acl_of b s = Some (k, c) -> acl_of empty_address s = None ->
  number asks_switch (filter (addressed b) extra) =
  match o with
  | Command (SwitchRole x r) => if list_eqb x b then match sco_of order b s with None => if role_eqb r (acl_role c) then 0 else 1 | Some _ => 0 end else 0
  | _ => 0
  end%nat.
Proof.
  intros order cfg o s extra k c AD F NE.
  assert (Z : sends (fun q => asks_switch q = false) (jobs_of order cfg o s) \/ exists x r, o = Command (SwitchRole x r)).
  { assert (Y : forall q, asks_switch q = false -> asks_switch q = false) by auto. destruct o as [cm|h pb bc d|h d|rssi p|]; cbn [jobs_of].
    - destruct cm; try (right; eauto; fail); left; cbn [jobs_of_command]; cbv zeta; unfold jobs_disconnect, jobs_accept, jobs_setup, jobs_accept_sync, jobs_ask, to; sending ltac:(reflexivity).
    - left. unfold to. sending ltac:(reflexivity).
    - left. unfold to. sending ltac:(reflexivity).
    - left. destruct (for_me p s); [|apply sends_nil]. unfold jobs_of_packet, to. cbv zeta. destruct (content p); sending ltac:(reflexivity).
    - left. apply sends_nil. }
  destruct AD as [(_ & ->)|(-> & FM)].
  2:{ apply number_none. intros q I. apply filter_In in I. destruct I as (I & _). pose proof (role_made _ _ FM q I) as X. unfold switching in X. unfold asks_switch. now destruct (content q). }
  destruct Z as [Z|(x & r & ->)].
  - rewrite number_none by (intros q I; apply filter_In in I; destruct I as (I & _); now apply Z).
    destruct o as [cm| | | |]; auto. destruct cm; auto. destruct (list_eqb a0 b) eqn:E; auto. apply list_eqb_eq in E. subst a0. destruct (sco_of order b s) eqn:SC; auto.
    destruct (role_eqb r (acl_role c)) eqn:RE; auto. exfalso. cbn [jobs_of jobs_of_command] in Z. rewrite F, SC, RE in Z. cbn in Z. specialize (Z _ (or_introl eq_refl)). discriminate.
  - cbn [jobs_of jobs_of_command]. destruct (list_eqb x b) eqn:E.
    + apply list_eqb_eq in E. subst x. rewrite F. destruct (sco_of order b s); auto. destruct (role_eqb r (acl_role c)); cbn [negb].
      * apply number_none. intros q I. apply filter_In in I. destruct I as (I & _). unfold when_unmasked in I. destruct (unmasked s 18); cbn in I; contradiction.
      * cbn [flat_map packet_of to app filter]. unfold addressed. cbn [destination]. rewrite list_eqb_refl, orb_true_r. reflexivity.
    + apply number_none. intros q I. apply filter_In in I. destruct I as (I & D). unfold addressed in D.
      destruct (acl_of x s) as [[h0 c0]|] eqn:FX; [|destruct I]. destruct (sco_of order x s); [destruct I|]. destruct (negb _).
      * destruct I as [<-|[]]. cbn [destination] in D. rewrite E, orb_false_r in D. apply list_eqb_eq in D. congruence.
      * unfold when_unmasked in I. destruct (unmasked s 18); cbn in I; contradiction.
Qed.
Definition owed (w : world) : nat := number asks_switch (way_right b w) + number responds (way_left a w).
Definition is_switch_command (e : entry) : bool := match what e, status_of e with Command (SwitchRole x _), Some st => list_eqb x b && (st =? SUCCESS) | _, _ => false end.
Definition is_switch_request (e : entry) : bool := match what e with Receive _ p => list_eqb (source p) b && match content p with SwitchRequest => true | _ => false end | _ => false end.
Lemma length_if : forall (T : Type) (x : bool) (y : T) l, List.length (if x then y :: l else l) = ((if x then 1 else 0) + List.length l)%nat.
Proof. now intros T []. Qed.
Theorem roles_counted : forall hl hr w0 nl nr w, during hl hr w0 nl nr w -> role_settled a b w0 ->
  (List.length (all_roles nl w) + owed w)%nat = (switch_commands b nl + (if allowed then switch_requests b nl else 0))%nat.
Proof.
  intros hl hr w0 nl nr w M (S1 & S2 & S3). induction M as [R H|nl nr w e w' M IH MV T KW|nl nr w e w' M IH MV T KW].
  - unfold all_roles, owed. rewrite S3, !number_none; [now destruct allowed| |].
    + intros p I. specialize (S2 p I). unfold switching in S2. unfold responds. now destruct (content p).
    + intros p I. specialize (S1 p I). unfold switching in S1. unfold asks_switch. now destruct (content p).
  - destruct (meanwhile_reaches _ _ _ _ _ _ _ _ _ _ _ _ _ M) as (R & _ & (k & c & F & AL) & U & NE). destruct (reach_histories _ _ _ _ _ _ any1 any2 _ _ _ R) as (H1 & _ & _ & _ & A1 & _).
    assert (NE' : acl_of empty_address (left w) = None) by (unfold role_with in NE; destruct (acl_of empty_address (left w)) as [[? ?]|]; [discriminate|reflexivity]).
    destruct (ways_honest _ _ _ _ _ _ any1 any2 _ _ _ R) as (_ & HL).
    destruct (left_way _ _ _ _ _ _ any1 any2 _ _ _ _ _ R MV T) as (_ & (extra & WR & AD) & (st & out & ST & SE & SO) & HE).
    rewrite (left_roles _ _ _ _ _ _ _ _ _ _ M MV T F), app_length. unfold owed. rewrite WR, number_app, (requests_sent _ _ _ _ _ _ _ AD F NE').
    unfold owed in IH. unfold switch_commands, switch_requests in *. cbn [filter]. rewrite !length_if. fold (is_switch_command e) (is_switch_request e).
    set (NC := List.length (filter _ nl)) in *. set (NQ := List.length (filter _ nl)) in *.
    enough (G : (List.length (to_be_told order1 b (what e) (left w) c) +
      (match what e with Command (SwitchRole x r) => if list_eqb x b then match sco_of order1 b (left w) with None => if role_eqb r (acl_role c) then 0 else 1 | Some _ => 0 end else 0 | _ => 0 end) + number responds (way_left a w') =
      (if is_switch_command e then 1 else 0) + (if allowed then if is_switch_request e then 1 else 0 else 0) + number responds (way_left a w))%nat) by (destruct allowed; lia).
    clear IH NC NQ. unfold is_switch_command, is_switch_request. rewrite SO. destruct HE as [(FO & ->)|(rssi & p & W & WL)].
    + assert (ZZ : forall x y, x = 0%nat -> y = 0%nat -> (x + y = 0)%nat) by lia.
      destruct (what e) as [cm| | |rssi p|] eqn:W; cbn [to_be_told List.length]; try (destruct allowed; reflexivity).
      * destruct cm; cbn [List.length]; try (destruct allowed; reflexivity). cbn [step run_command] in ST. unfold quiet in ST. cbn [bind] in ST. injection ST as _ <- _. unfold switch_role.
        destruct (list_eqb a0 b) eqn:E; [|destruct allowed; reflexivity]. apply list_eqb_eq in E. subst a0. rewrite F. destruct (sco_of order1 b (left w)); [destruct allowed; reflexivity|]. cbn [fst andb].
        destruct (role_eqb r (acl_role c)); destruct allowed; reflexivity.
      * destruct FO as (F1 & _). assert (X : list_eqb (source p) b = false) by (destruct (list_eqb (source p) b) eqn:X; auto; apply list_eqb_eq in X; contradiction).
        rewrite X, andb_false_r. cbn [andb List.length]. destruct allowed; reflexivity.
    + rewrite W in *. rewrite WL in HL. inversion HL as [|? ? (FM & HP) HL']. subst x l. rewrite WL. rewrite <- A1 in FM. change (for_me p (left w) = true) in FM.
      cbn [to_be_told]. rewrite FM. cbn [andb]. unfold number. cbn [filter]. rewrite length_if. fold (number responds (way_left a w')).
      destruct (switching p) eqn:SW.
      * specialize (HP eq_refl). rewrite HP, list_eqb_refl. unfold switching in SW. unfold responds at 2. destruct (content p); try discriminate; cbn [andb List.length]; [|destruct allowed; lia].
        rewrite AL. destruct allowed; cbn [List.length]; lia.
      * unfold switching in SW. unfold responds at 2. destruct (list_eqb (source p) b), (content p); try discriminate; destruct allowed; cbn [andb List.length]; lia.
  - destruct (meanwhile_reaches _ _ _ _ _ _ _ _ _ _ _ _ _ M) as (R & (_ & J) & _). destruct (reach_histories _ _ _ _ _ _ any1 any2 _ _ _ R) as (_ & H2 & _ & _ & _ & A2).
    destruct (ways_honest _ _ _ _ _ _ any1 any2 _ _ _ R) as (HR & _).
    destruct (right_way _ _ _ _ _ _ any1 any2 _ _ _ _ _ R MV T) as (LE & (extra & WL & AD) & _ & HE).
    unfold all_roles in *. rewrite LE. rewrite <- IH. f_equal. unfold owed. rewrite WL, number_app.
    destruct HE as [(FO & ->)|(rssi & p & W & WR)].
    + rewrite (no_answers _ _ _ _ _ _ AD); [lia|]. intros rssi p W. rewrite W in FO. right. exact FO.
    + rewrite W in AD. rewrite WR in HR. inversion HR as [|? ? (FM & HP) HR']. subst x l. rewrite WR. rewrite <- A2 in FM. change (for_me p (right w) = true) in FM.
      unfold number at 4. cbn [filter]. rewrite length_if. fold (number asks_switch (way_right b w')).
      destruct (asks_switch p) eqn:AS.
      * assert (CO : content p = SwitchRequest) by (unfold asks_switch in AS; now destruct (content p)). assert (SP : source p = a) by (apply HP; unfold switching; now rewrite CO).
        destruct AD as [(_ & ->)|(X & _)]; [|discriminate]. fold (pk (jobs_of order2 cfg2 (Receive rssi p) (right w))). unfold role_with in J. rewrite <- SP in J.
        destruct (acl_of (source p) (right w)) as [[k c]|] eqn:F; [|contradiction]. rewrite (jobs_request _ _ _ _ _ _ _ CO F FM). cbn [filter]. unfold addressed. cbn [destination]. rewrite SP, list_eqb_refl, orb_true_r.
        change (number responds [Air (address (right w)) a (SwitchResponse (if N.testbit (acl_policy c) 0 then SUCCESS else ROLE_NOT_ALLOWED))]) with 1%nat. lia.
      * rewrite (no_answers _ _ _ _ _ _ AD); [lia|]. intros rssi' p' [= <- <-]. left. intros CO. unfold asks_switch in AS. now rewrite CO in AS.
Qed.
Theorem roles_all_told : forall hl hr w0 nl nr w, during hl hr w0 nl nr w -> role_settled a b w0 -> role_settled a b w ->
  List.length (roles_told b nl) = (switch_commands b nl + (if allowed then switch_requests b nl else 0))%nat.
Proof.
  intros hl hr w0 nl nr w M S0 (S1 & S2 & S3). rewrite <- (roles_counted _ _ _ _ _ _ M S0). unfold all_roles, owed. rewrite S3, app_nil_r, !number_none; [lia| |].
  - intros p I. specialize (S2 p I). unfold switching in S2. unfold responds. now destruct (content p).
  - intros p I. specialize (S1 p I). unfold switching in S1. unfold asks_switch. now destruct (content p).
Qed.
End Account.

(** * The roles of a new link *)
Section New.
Variable order : table sco_link -> table sco_link.
Variable cfg : config.
Hypothesis any_order : forall t, Permutation (order t) t.
Lemma new_acl_of : forall a s s' h c, acl_of a s = None -> acl_peer c = a -> acls s' = acls s ++ [(h, c)] -> acl_of a s' = Some (h, c).
Proof.
  intros a s s' h c F P E. unfold acl_of in *. rewrite E. clear E. revert F. induction (acls s) as [|e l IH]; cbn [app find].
  - cbn [snd]. now rewrite P, list_eqb_refl.
  - destruct (list_eqb (acl_peer (snd e)) a); [discriminate|auto].
Qed.
Theorem accepted_roles : forall h s now a try s' st out r, history order cfg h s -> step order cfg now s (Command (AcceptConnection a try)) = Ok (s', st, out) ->
  role_with a s = None -> role_with a s' = Some r ->
  exists pg, page_scan s = Some pg /\ scan_peer pg = a /\ (r = CENTRAL <-> try = true /\ scan_allow pg <> 0).
Proof.
  intros h s now a try s' st out r H E R0 R1. pose proof (core_history order cfg any_order _ _ H) as C. cbn [step run_command] in E. unbind E. unbind E0. injection E0 as <- <- <-. injection E as <- <- <-.
  assert (F : acl_of a s = None) by (unfold role_with in R0; destruct (acl_of a s) as [[? ?]|]; [discriminate|reflexivity]).
  destruct (accept_effect order _ _ _ _ _ _ C E1) as [(PE & _)|(PB & _ & _ & _ & k & _ & _ & EA & _)].
  - assert (X : acl_of a b0 = None) by (apply acl_of_peers; rewrite PE; now apply acl_of_peers). unfold role_with in R1. rewrite X in R1. discriminate.
  - unfold role_with in R1. erewrite (new_acl_of _ _ _ _ _ F) in R1; [|shelve|exact EA]. Unshelve. 2:{ reflexivity. } injection R1 as <-. cbn [acl_role].
    unfold paged_by in PB. destruct (page_scan s) as [pg|] eqn:PG; [|discriminate]. apply list_eqb_eq in PB. exists pg. split; auto. split; auto.
    unfold accepted_role. rewrite PG. destruct (N.eqb_spec (scan_allow pg) 0) as [Z|Z], try; cbn [andb negb]; split; try discriminate; auto; intros (X & Y); congruence.
Qed.
Theorem paging_roles : forall h s now rssi p try s' st out r, history order cfg h s -> step order cfg now s (Receive rssi p) = Ok (s', st, out) -> content p = PageResponse try ->
  role_with (source p) s = None -> role_with (source p) s' = Some r ->
  exists pg, page s = Some pg /\ page_peer pg = source p /\ (r = PERIPHERAL <-> try = true /\ page_allow pg <> 0).
Proof.
  intros h s now rssi p try s' st out r H E CO R0 R1. pose proof (core_history order cfg any_order _ _ H) as C. cbn [step] in E. unbind E. injection E as <- <- <-.
  assert (F : acl_of (source p) s = None) by (unfold role_with in R0; destruct (acl_of (source p) s) as [[? ?]|]; [discriminate|reflexivity]).
  unfold receive in E0. destruct (for_me p s); [|injection E0 as <- <-; congruence]. rewrite (acl_of_heard_none _ _ _ F) in E0. unfold dispatch in E0. rewrite CO in E0.
  destruct (response_effect order _ _ _ _ _ _ C E0) as [(_ & -> & _)|(PB & _ & k & _ & _ & EA & _)]; [congruence|].
  unfold role_with in R1. erewrite (new_acl_of _ _ _ _ _ F) in R1; [|shelve|exact EA]. Unshelve. 2:{ reflexivity. } injection R1 as <-. cbn [acl_role].
  unfold paging in PB. destruct (page s) as [pg|] eqn:PG; [|discriminate]. apply list_eqb_eq in PB. exists pg. split; auto. split; auto.
  unfold paging_role. rewrite PG. destruct (N.eqb_spec (page_allow pg) 0) as [Z|Z], try; cbn [andb negb]; split; try discriminate; auto; intros (X & Y); congruence.
Qed.
End New.
