(** Proofs about LE connections: the choice of the PHYs. *)
From Verif Require Import Prelude LeLink LeLinkSpec LeLinkProofs.
Open Scope N_scope.

Definition is_req (p : pdu) : bool := match p with PhyReq _ _ => true | _ => false end.
Definition is_rsp (p : pdu) : bool := match p with PhyRsp _ _ => true | _ => false end.
Definition prefers (cfg : settings) (x : side) (h : list entry) (p : pdu) : Prop :=
  match p with PhyReq tx rx | PhyRsp tx rx => tx_preference cfg x h tx /\ rx_preference cfg x h rx | _ => True end.
(** A PHY used from [x] to [y] *)
Definition chosen (cx cy : settings) (x y : side) (h : list entry) (q : phy) : Prop :=
  q = LE_1M \/ exists a b, tx_preference cx x h a /\ rx_preference cy y h b /\ allows a q /\ allows b q.

Lemma tx_more cfg x h e a : tx_preference cfg x h a -> tx_preference cfg x (e :: h) a.
Proof. intros [->|(m & c & ev & I & A)]; [now left|right; exists m, c, ev; split; [now right|exact A]]. Qed.
Lemma rx_more cfg x h e a : rx_preference cfg x h a -> rx_preference cfg x (e :: h) a.
Proof. intros [->|(m & c & ev & I & A)]; [now left|right; exists m, c, ev; split; [now right|exact A]]. Qed.
Lemma prefers_more cfg x h e p : prefers cfg x h p -> prefers cfg x (e :: h) p.
Proof. destruct p; cbn; auto; intros [A B]; split; [apply tx_more|apply rx_more|apply tx_more|apply rx_more]; assumption. Qed.
Lemma chosen_more cx cy x y h e q : chosen cx cy x y h q -> chosen cx cy x y (e :: h) q.
Proof. intros [->|(a & b & A & B & C)]; [now left|right; exists a, b; split; [now apply tx_more|split; [now apply rx_more|exact C]]]. Qed.

Record Side_pref (cfg : settings) (x : side) (h : list entry) (e : endpoint) : Prop := {
  sp_sup : supported_phys e = s_supported cfg; sp_tx : tx_preference cfg x h (default_tx e); sp_rx : rx_preference cfg x h (default_rx e) }.
Lemma side_more cfg x h en e : Side_pref cfg x h e -> Side_pref cfg x (en :: h) e.
Proof. intros [A B C]. constructor; [exact A|now apply tx_more|now apply rx_more]. Qed.

Definition requested_ok (cfg : settings) (x : side) (h : list entry) (e : endpoint) : Prop :=
  tx_preference cfg x h (requested_tx e) /\ rx_preference cfg x h (requested_rx e).

Record Pref (c p : settings) (h : list entry) (s : system) : Prop := {
  p_cen : Side_pref c Central h (cen s);
  p_per : Side_pref p Peripheral h (per s);
  p_to_per : Forall (prefers c Central h) (to_per s);
  p_to_cen : Forall (prefers p Peripheral h) (to_cen s);
  p_req : requested_ok c Central h (cen s) \/ (existsb is_req (to_per s) = false /\ existsb is_rsp (to_cen s) = false);
  p_tx : chosen c p Central Peripheral h (tx_phy (cen s));
  p_rx : chosen p c Peripheral Central h (rx_phy (cen s)) }.

Lemma check_phys_ok sup no_tx no_rx tx rx t r : check_phys sup no_tx no_rx tx rx = inr (t, r) -> t = (if no_tx then sup else tx) /\ r = (if no_rx then sup else rx).
Proof.
  unfold check_phys. cbv zeta. destruct (_ =? 0); [discriminate|]. destruct (_ =? 0); [discriminate|].
  destruct (negb _); [discriminate|]. destruct (negb _); [discriminate|]. now intros [= <- <-].
Qed.

Lemma command_pref cfg x h m e c e' st ps ev : Side_pref cfg x h e -> do_command m e c = (e', st, ps, ev) ->
  let h' := Entry (Host x m c) st ev :: h in
  Side_pref cfg x h' e' /\ Forall (prefers cfg x h') ps /\ existsb is_rsp ps = false /\
  ((requested_tx e' = requested_tx e /\ requested_rx e' = requested_rx e /\ existsb is_req ps = false) \/ requested_ok cfg x h' e' \/
   exists a b t r, c = SetPhyElsewhere a b t r).
Proof.
  intros S H h'. assert (S' : Side_pref cfg x h' e) by (now apply side_more). pose proof (sp_sup _ _ _ _ S) as SUP. subst h'.
  destruct c; command_cases H; try (split; [exact S'|split; [repeat constructor|split; [reflexivity|auto]]]; fail).
  - (* SetDefaultPhy *) destruct (check_phys_ok _ _ _ _ _ _ _ Heqs) as [-> ->]. rewrite SUP in *. split; [|split; [constructor|split; [reflexivity|left; auto]]].
    constructor; cbn; [exact SUP| |]; right; eexists _, _, _; (split; [left; reflexivity|reflexivity]).
  - (* SetPhy *) destruct (check_phys_ok _ _ _ _ _ _ _ Heqs) as [-> ->]. rewrite SUP in *.
    match goal with |- Side_pref _ _ ?h _ /\ _ => assert (P : tx_preference cfg x h (if no_tx then s_supported cfg else tx) /\ rx_preference cfg x h (if no_rx then s_supported cfg else rx)) end.
    { split; right; eexists _, _, _; (split; [left; reflexivity|reflexivity]). }
    split; [destruct S'; constructor; assumption|]. split; [constructor; [exact P|constructor]|]. split; [reflexivity|]. right. left. exact P.
  - (* SetPhyElsewhere *) split; [destruct S'; constructor; assumption|]. split; [constructor|]. split; [reflexivity|]. right. right. eauto.
  - split; [destruct S'; constructor; assumption|]. split; [constructor|]. split; [reflexivity|auto].
  - split; [destruct S'; constructor; assumption|]. split; [repeat constructor|]. split; [reflexivity|auto].
  - split; [destruct S'; constructor; assumption|]. split; [repeat constructor|]. split; [reflexivity|auto].
  - split; [destruct S'; constructor; assumption|]. split; [repeat constructor|]. split; [reflexivity|auto].
  - split; [destruct S'; constructor; assumption|]. split; [repeat constructor|]. split; [reflexivity|auto].
  - split; [destruct S'; constructor; assumption|]. split; [repeat constructor|]. split; [reflexivity|auto].
  - split; [destruct S'; constructor; assumption|]. split; [repeat constructor|]. split; [reflexivity|auto].
  - split; [destruct S'; constructor; assumption|]. split; [repeat constructor|]. split; [reflexivity|auto].
  - split; [destruct S'; constructor; assumption|]. split; [repeat constructor|]. split; [reflexivity|auto].
Qed.

Lemma select_from a b cur : select_phy (N.land a b) cur = cur \/ (allows a (select_phy (N.land a b) cur) /\ allows b (select_phy (N.land a b) cur)).
Proof. destruct (select_both a b cur) as [(A & B & _)|[A _]]; auto. Qed.

Lemma receive_per_pref p h m e q e' ps ev : central e = false -> Side_pref p Peripheral h e -> do_receive m e q = Some (e', ps, ev) ->
  Side_pref p Peripheral h e' /\ Forall (prefers p Peripheral h) ps /\ (existsb is_rsp ps = true -> is_req q = true).
Proof.
  intros R S H. destruct q; receive_cases H; try congruence; rewrite ?R in *; try discriminate;
    (split; [destruct S; constructor; assumption|]); (split; [|cbn; congruence]);
    first [exact (Forall_nil _) | (apply Forall_cons; [first [exact I | (split; apply S)]|exact (Forall_nil _)])].
Qed.

Lemma receive_cen_pref c p h m e q e' ps ev : central e = true -> Side_pref c Central h e -> prefers p Peripheral h q ->
  (is_rsp q = true -> requested_ok c Central h e) ->
  chosen c p Central Peripheral h (tx_phy e) -> chosen p c Peripheral Central h (rx_phy e) ->
  do_receive m e q = Some (e', ps, ev) ->
  Side_pref c Central h e' /\ requested_tx e' = requested_tx e /\ requested_rx e' = requested_rx e /\ Forall (prefers c Central h) ps /\ existsb is_req ps = false /\
  chosen c p Central Peripheral h (tx_phy e') /\ chosen p c Peripheral Central h (rx_phy e').
Proof.
  intros R S Q RQ CT CR H.
  destruct q; receive_cases H; try congruence; rewrite ?R in *; try discriminate;
    try (split; [destruct S; constructor; assumption|]; split; [reflexivity|]; split; [reflexivity|]; split; [now repeat constructor|]; split; [reflexivity|]; split; assumption).
  1,2: destruct S as [S1 S2 S3]; cbn in Q; destruct Q as [Q1 Q2]; split; [constructor; assumption|]; split; [reflexivity|]; split; [reflexivity|]; split; [now repeat constructor|]; split; [reflexivity|]; cbn; split;
    [ destruct (select_from rx (default_tx e) (tx_phy e)) as [->|[A B]]; [exact CT|]; right; eexists _, _; split; [exact S2|]; split; [exact Q2|]; split; [exact B|exact A]
    | destruct (select_from tx (default_rx e) (rx_phy e)) as [->|[A B]]; [exact CR|]; right; eexists _, _; split; [exact Q1|]; split; [exact S3|]; split; [exact A|exact B] ].
  - destruct S as [S1 S2 S3]. cbn in Q. destruct Q as [Q1 Q2]. destruct (RQ eq_refl) as [RQ1 RQ2]. split; [constructor; assumption|]. split; [reflexivity|]. split; [reflexivity|]. split; [repeat constructor|]. split; [reflexivity|]. cbn.
    split.
    + destruct (select_from rx (requested_tx e) (tx_phy e)) as [->|[A B]]; [exact CT|]. right. eexists _, _. split; [exact RQ1|]. split; [exact Q2|]. split; [exact B|exact A].
    + destruct (select_from tx (requested_rx e) (rx_phy e)) as [->|[A B]]; [exact CR|]. right. eexists _, _. split; [exact Q1|]. split; [exact RQ2|]. split; [exact A|exact B].
Qed.

Lemma requested_more cfg x h en e : requested_ok cfg x h e -> requested_ok cfg x (en :: h) e.
Proof. intros [A B]. split; [now apply tx_more|now apply rx_more]. Qed.

Lemma pref_more c p h s en : Pref c p h s -> Pref c p (en :: h) s.
Proof.
  intros [A1 A2 A3 A4 A5 A6 A7]. constructor; try (now apply side_more); try (now apply chosen_more).
  - eapply Forall_impl; [|exact A3]. intros. now apply prefers_more.
  - eapply Forall_impl; [|exact A4]. intros. now apply prefers_more.
  - destruct A5 as [A5|A5]; [left; now apply requested_more|now right].
Qed.

Lemma step_pref sc sp h s o s' st ev : Roles s -> Pref sc sp h s -> (forall m a b t r, o <> Host Central m (SetPhyElsewhere a b t r)) -> step s o = Some (s', st, ev) ->
  Pref sc sp (Entry o st ev :: h) s'.
Proof.
  intros R P NE H. pose proof (pref_more sc sp h s (Entry o st ev) P) as [A1 A2 A3 A4 A5 A6 A7]. step_cases H.
  - destruct (command_pref sc Central h m (cen s) c e' st' ps ev' (p_cen _ _ _ _ P) D) as (X & Y & Z & W). destruct (command_phys _ _ _ _ _ _ _ D) as (E1 & E2 & _).
    constructor; cbn [cen per to_per to_cen]; rewrite ?E1, ?E2; try assumption; [now apply Forall_app|].
    destruct W as [(W1 & W2 & W3)|[W|(a & b & t & r & ->)]]; [|now left|exfalso; eapply NE; reflexivity].
    destruct A5 as [[U V]|[U V]]; [left; split; [rewrite W1; exact U|rewrite W2; exact V]|right]. rewrite existsb_app, U, W3. auto.
  - destruct (command_pref sp Peripheral h m (per s) c e' st' ps ev' (p_per _ _ _ _ P) D) as (X & Y & Z & W).
    constructor; cbn [cen per to_per to_cen]; try assumption; [now apply Forall_app|].
    destruct A5 as [U|[U V]]; [now left|right]. rewrite existsb_app, V, Z. auto.
  - constructor; rewrite ?T; assumption.
  - rewrite ?T in *. inversion A4 as [|x y B1 B2]; subst.
    assert (RQ : is_rsp p = true -> requested_ok sc Central (Entry (Deliver Central m) SUCCESS ev' :: h) (cen s)).
    { intros I. destruct A5 as [A5|[_ A5]]; [exact A5|]. cbn in A5. rewrite I in A5. discriminate. }
    destruct (receive_cen_pref sc sp _ m (cen s) p e' ps ev' (r_cen s R) A1 B1 RQ A6 A7 D) as (X1 & X2 & X3 & X4 & X5 & X6 & X7).
    constructor; cbn [cen per to_per to_cen]; try assumption; [now apply Forall_app|].
    destruct A5 as [[U V]|[U V]]; [left; split; [rewrite X2; exact U|rewrite X3; exact V]|right]. rewrite existsb_app, U, X5. split; [reflexivity|].
    cbn in V. now apply orb_false_iff in V.
  - constructor; rewrite ?T; assumption.
  - rewrite ?T in *. inversion A3 as [|x y B1 B2]; subst.
    destruct (receive_per_pref sp _ m (per s) p e' ps ev' (r_per s R) A2 D) as (X1 & X2 & X3).
    constructor; cbn [cen per to_per to_cen]; try assumption; [now apply Forall_app|].
    destruct A5 as [U|[U V]]; [now left|right]. cbn in U. apply orb_false_iff in U as [U1 U2]. split; [exact U2|]. rewrite existsb_app, V. cbn.
    destruct (existsb is_rsp ps); [rewrite (X3 eq_refl) in U1; discriminate|reflexivity].
Qed.
Lemma history_pref c p i lat tmo h s : history (connected c p i lat tmo) h s -> (forall e, In e h -> ~ phy_of_other_link e) -> Pref c p h s.
Proof.
  intros H Q. enough (Roles s /\ Pref c p h s) by tauto. induction H as [|h s o s' st ev H IH S].
  - split; [apply connected_roles|]. constructor; cbn; [constructor; [reflexivity|now left|now left]|constructor; [reflexivity|now left|now left]|constructor|constructor|right; auto|now left|now left].
  - destruct IH as [R P]; [intros e I; apply Q; now right|]. split; [eapply step_roles; eassumption|]. eapply step_pref; try eassumption.
    intros m a b t r ->. apply (Q _ (or_introl eq_refl)). exists m, a, b, t, r. reflexivity.
Qed.
Lemma phys_allowed c p i lat tmo h s : history (connected c p i lat tmo) h s -> (forall e, In e h -> ~ phy_of_other_link e) ->
  (tx_phy (cen s) = LE_1M \/ exists a b, tx_preference c Central h a /\ rx_preference p Peripheral h b /\ allows a (tx_phy (cen s)) /\ allows b (tx_phy (cen s))) /\
  (rx_phy (cen s) = LE_1M \/ exists a b, tx_preference p Peripheral h a /\ rx_preference c Central h b /\ allows a (rx_phy (cen s)) /\ allows b (rx_phy (cen s))).
Proof. intros H Q. destruct (history_pref _ _ _ _ _ _ _ H Q) as [_ _ _ _ _ A B]. split; [exact A|exact B]. Qed.

(** * A procedure on its own *)
Lemma indicated selected current : select_phy (indicate_phy selected current) current = selected.
Proof. destruct selected, current; reflexivity. Qed.

Lemma central_procedure s m m1 m2 m3 no_tx no_rx tx rx s1 ev1 s2 st2 ev2 s3 st3 ev3 s4 st4 ev4 : Roles s -> quiet s -> up (cen s) = true -> up (per s) = true ->
  tx_phy (cen s) = rx_phy (per s) -> rx_phy (cen s) = tx_phy (per s) ->
  step s (Host Central m (SetPhy no_tx no_rx tx rx)) = Some (s1, SUCCESS, ev1) ->
  step s1 (Deliver Peripheral m1) = Some (s2, st2, ev2) ->
  step s2 (Deliver Central m2) = Some (s3, st3, ev3) ->
  step s3 (Deliver Peripheral m3) = Some (s4, st4, ev4) ->
  quiet s4 /\
  both_allow (default_rx (per s)) (if no_tx then supported_phys (cen s) else tx) (tx_phy (cen s)) (tx_phy (cen s4)) /\
  both_allow (default_tx (per s)) (if no_rx then supported_phys (cen s) else rx) (rx_phy (cen s)) (rx_phy (cen s4)) /\
  rx_phy (per s4) = tx_phy (cen s4) /\ tx_phy (per s4) = rx_phy (cen s4) /\
  (m2 M_PHY_UPDATE = true -> ev3 = [PhyUpdateComplete (tx_phy (cen s4)) (rx_phy (cen s4))]).
Proof.
  destruct s as [ec ep tp tc]. intros [R1 R2 _ _] [Q1 Q2] U1 U2 A B. cbn [cen per to_per to_cen] in *. subst tp tc.
  unfold step at 1. cbn [do_command cen]. rewrite U1. cbn [negb].
  destruct (check_phys (supported_phys ec) no_tx no_rx tx rx) as [er|[t r]] eqn:C.
  { unfold refuse. cbn. intros [= <- -> <-]. unfold check_phys in C. cbv zeta in C. repeat match type of C with context [if ?b then _ else _] => destruct b end; discriminate. }
  apply check_phys_ok in C as [-> ->]. intros [= <- <-].
  unfold step at 1. cbn [to_per app per cen to_cen]. unfold do_receive at 1. rewrite U2, R2. cbn [negb]. intros [= <- <- <-].
  intros H. unfold step, do_receive in H. cbn in H. rewrite U1, R1 in H. cbn in H. apply some3 in H. destruct H as (-> & -> & ->).
  intros H. unfold step, do_receive in H. cbn in H. rewrite U2, R2 in H. cbn in H. apply some3 in H. destruct H as (-> & -> & ->).
  cbn. rewrite <- A, <- B, !indicated.
  split; [split; reflexivity|]. split; [apply select_both|]. split; [apply select_both|]. split; [reflexivity|]. split; [reflexivity|].
  unfold emit. now intros ->.
Qed.

Lemma peripheral_procedure s m m1 m2 no_tx no_rx tx rx s1 ev1 s2 st2 ev2 s3 st3 ev3 : Roles s -> quiet s -> up (cen s) = true -> up (per s) = true ->
  tx_phy (cen s) = rx_phy (per s) -> rx_phy (cen s) = tx_phy (per s) ->
  step s (Host Peripheral m (SetPhy no_tx no_rx tx rx)) = Some (s1, SUCCESS, ev1) ->
  step s1 (Deliver Central m1) = Some (s2, st2, ev2) ->
  step s2 (Deliver Peripheral m2) = Some (s3, st3, ev3) ->
  quiet s3 /\
  both_allow (if no_tx then supported_phys (per s) else tx) (default_rx (cen s)) (tx_phy (per s)) (tx_phy (per s3)) /\
  both_allow (if no_rx then supported_phys (per s) else rx) (default_tx (cen s)) (rx_phy (per s)) (rx_phy (per s3)) /\
  rx_phy (per s3) = tx_phy (cen s3) /\ tx_phy (per s3) = rx_phy (cen s3) /\
  (m2 M_PHY_UPDATE = true -> ev3 = [PhyUpdateComplete (tx_phy (per s3)) (rx_phy (per s3))]).
Proof.
  destruct s as [ec ep tp tc]. intros [R1 R2 _ _] [Q1 Q2] U1 U2 A B. cbn [cen per to_per to_cen] in *. subst tp tc.
  unfold step at 1. cbn [do_command per]. rewrite U2. cbn [negb].
  destruct (check_phys (supported_phys ep) no_tx no_rx tx rx) as [er|[t r]] eqn:C.
  { unfold refuse. cbn. intros [= <- -> <-]. unfold check_phys in C. cbv zeta in C. repeat match type of C with context [if ?b then _ else _] => destruct b end; discriminate. }
  apply check_phys_ok in C as [-> ->]. intros [= <- <-].
  intros H. unfold step, do_receive in H. cbn in H. rewrite U1, R1 in H. cbn in H. apply some3 in H. destruct H as (-> & -> & ->).
  intros H. unfold step, do_receive in H. cbn in H. rewrite U2, R2 in H. cbn in H. apply some3 in H. destruct H as (-> & -> & ->).
  cbn. rewrite <- A, <- B, !indicated, !orb_true_r.
  split; [split; reflexivity|]. split; [apply select_both|]. split; [apply select_both|]. split; [reflexivity|]. split; [reflexivity|].
  unfold emit. now intros ->.
Qed.
