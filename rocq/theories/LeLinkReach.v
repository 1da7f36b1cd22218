(** The lemmas about LE connections, for the reachable states. *)
From Verif Require Import Prelude LeLink LeLinkSpec LeLinkProofs LeLinkMore LeLinkPhy.
Open Scope N_scope.

Lemma accepted_reachable : forall c p i lat tmo h s m fmin fmax l cont t rest,
  1 <= sub_min (s_subrate c) <= sub_max (s_subrate c) /\ sub_max (s_subrate c) <= 500 -> history (connected c p i lat tmo) h s -> up (cen s) = true -> to_cen s = SubrateReq fmin fmax l cont t :: rest ->
  let a := acceptable (cen s) in
  exists s' ev, step s (Deliver Central m) = Some (s', SUCCESS, ev) /\
  ((cp (cen s') = cp (cen s) /\ to_per s' = to_per s ++ [SubrateInd INVALID_LMP_OR_LL_PARAMETERS 0 0 0 0] /\ ev = []) \/
   exists f l' c' t', cp (cen s') = CParams (interval (cp (cen s))) f c' l' t' /\ to_per s' = to_per s ++ [SubrateInd SUCCESS f l' c' t'] /\
     fmin <= f <= fmax /\ sub_min a <= f <= sub_max a /\ c' = N.min (N.max cont (sub_continuation a)) (f - 1) /\
     l' <= l /\ l' <= sub_latency a /\ t' = N.min t (sub_timeout a)).
Proof.
  intros c p i lat tmo h s m fmin fmax l cont t rest S H. apply accepted_request; [eapply history_roles; exact H|eapply history_sane; [exact S|exact H]].
Qed.

Lemma central_request_reachable : forall c p i lat tmo h s m smin smax l cont t, history (connected c p i lat tmo) h s -> up (cen s) = true ->
  exists s' st ev, step s (Host Central m (SubrateRequest smin smax l cont t)) = Some (s', st, ev) /\
  (st = SUCCESS -> cp (cen s') = CParams (interval (cp (cen s))) smax cont l t /\ acceptable (cen s') = Subrate smin smax l cont t /\
     1 <= smin <= smax /\ cont < smax /\ smax * (l + 1) <= 500 /\ timeout_allows (interval (cp (cen s))) smax l t) /\
  (st <> SUCCESS -> s' = s /\ ev = []).
Proof.
  intros c p i lat tmo h s m smin smax l cont t H. apply central_request. eapply history_roles; exact H.
Qed.

Lemma always_refused' : forall c p i lat tmo h s m fmin fmax l cont t rest, history (connected c p i lat tmo) h s -> (forall e, In e h -> keeps_interval (what e)) ->
  up (cen s) = true -> to_cen s = SubrateReq fmin fmax l cont t :: rest ->
  exists s', step s (Deliver Central m) = Some (s', SUCCESS, []) /\ cp (cen s') = cp (cen s) /\
    to_per s' = to_per s ++ [SubrateInd INVALID_LMP_OR_LL_PARAMETERS 0 0 0 0].
Proof.
  intros c p i lat tmo h s m fmin fmax l cont t rest H. eapply always_refused; exact H.
Qed.

Lemma phy_events_reachable : forall c p i lat tmo h s o s' st ev tx rx, history (connected c p i lat tmo) h s -> step s o = Some (s', st, ev) -> In (PhyUpdateComplete tx rx) ev ->
  exists x, on_side x o = true /\ tx = tx_phy (end_of x s') /\ rx = rx_phy (end_of x s').
Proof.
  intros c p i lat tmo h s o s' st ev tx rx _. apply phy_events.
Qed.

Lemma central_procedure' : forall c p i lat tmo h s m m1 m2 m3 no_tx no_rx tx rx s1 ev1 s2 st2 ev2 s3 st3 ev3 s4 st4 ev4, history (connected c p i lat tmo) h s -> quiet s -> up (cen s) = true ->
  step s (Host Central m (SetPhy no_tx no_rx tx rx)) = Some (s1, SUCCESS, ev1) ->
  step s1 (Deliver Peripheral m1) = Some (s2, st2, ev2) -> step s2 (Deliver Central m2) = Some (s3, st3, ev3) -> step s3 (Deliver Peripheral m3) = Some (s4, st4, ev4) ->
  quiet s4 /\
  both_allow (default_rx (per s)) (if no_tx then supported_phys (cen s) else tx) (tx_phy (cen s)) (tx_phy (cen s4)) /\
  both_allow (default_tx (per s)) (if no_rx then supported_phys (cen s) else rx) (rx_phy (cen s)) (rx_phy (cen s4)) /\
  rx_phy (per s4) = tx_phy (cen s4) /\ tx_phy (per s4) = rx_phy (cen s4) /\
  (m2 M_PHY_UPDATE = true -> ev3 = [PhyUpdateComplete (tx_phy (cen s4)) (rx_phy (cen s4))]).
Proof.
  intros c p i lat tmo h s m m1 m2 m3 no_tx no_rx tx rx s1 ev1 s2 st2 ev2 s3 st3 ev3 s4 st4 ev4 H Q U. pose proof (closed_together _ _ _ _ _ _ _ H Q) as V. rewrite U in V. symmetry in V.
  destruct (phys_equal _ _ _ _ _ _ _ H V (proj1 Q)) as [A B]. eapply central_procedure; try eassumption. eapply history_roles; exact H.
Qed.

Lemma peripheral_procedure' : forall c p i lat tmo h s m m1 m2 no_tx no_rx tx rx s1 ev1 s2 st2 ev2 s3 st3 ev3, history (connected c p i lat tmo) h s -> quiet s -> up (cen s) = true ->
  step s (Host Peripheral m (SetPhy no_tx no_rx tx rx)) = Some (s1, SUCCESS, ev1) ->
  step s1 (Deliver Central m1) = Some (s2, st2, ev2) -> step s2 (Deliver Peripheral m2) = Some (s3, st3, ev3) ->
  quiet s3 /\
  both_allow (if no_tx then supported_phys (per s) else tx) (default_rx (cen s)) (tx_phy (per s)) (tx_phy (per s3)) /\
  both_allow (if no_rx then supported_phys (per s) else rx) (default_tx (cen s)) (rx_phy (per s)) (rx_phy (per s3)) /\
  rx_phy (per s3) = tx_phy (cen s3) /\ tx_phy (per s3) = rx_phy (cen s3) /\
  (m2 M_PHY_UPDATE = true -> ev3 = [PhyUpdateComplete (tx_phy (per s3)) (rx_phy (per s3))]).
Proof.
  intros c p i lat tmo h s m m1 m2 no_tx no_rx tx rx s1 ev1 s2 st2 ev2 s3 st3 ev3 H Q U. pose proof (closed_together _ _ _ _ _ _ _ H Q) as V. rewrite U in V. symmetry in V.
  destruct (phys_equal _ _ _ _ _ _ _ H V (proj1 Q)) as [A B]. eapply peripheral_procedure; try eassumption. eapply history_roles; exact H.
Qed.

Lemma params_equal' : forall c p i lat tmo h s, history (connected c p i lat tmo) h s -> all_in_step h -> up (per s) = true -> to_per s = [] ->
  interval (cp (per s)) = interval (cp (cen s)) /\ latency (cp (per s)) = latency (cp (cen s)) /\ timeout (cp (per s)) = timeout (cp (cen s)).
Proof.
  intros c p i lat tmo h s H Q U T. rewrite (params_equal _ _ _ _ _ _ _ H Q U T). auto.
Qed.

Lemma central_key' : forall c p i lat tmo h s o s' st ev, history (connected c p i lat tmo) h s -> step s o = Some (s', st, ev) ->
  encrypted (cen s) = false -> encrypted (cen s') = true ->
  (exists m k, o = Host Central m (LtkReply k)) \/
  exists k m ev, In (Entry (Host Peripheral m (LtkReply k)) SUCCESS ev) h /\ (ltk (cen s) = None \/ ltk (cen s) = Some k).
Proof.
  intros c p i lat tmo h s o s' st ev H S A B. destruct (central_key _ _ _ _ _ _ _ _ _ _ _ H S A B) as [X|(k & (m & ev' & I) & L)]; [now left|right; exists k, m, ev'; auto].
Qed.

Lemma closed_silent : forall s o s' st ev x, up (end_of x s) = false -> on_side x o = true -> step s o = Some (s', st, ev) ->
  ev = [] /\ up (end_of x s') = false /\ (List.length (to_per s') <= List.length (to_per s))%nat /\ (List.length (to_cen s') <= List.length (to_cen s))%nat.
Proof.
  intros s o s' st ev x U O H. destruct o as [y m c|y m]; destruct x, y; try discriminate O; cbn in U.
  - destruct (closed_command s Central m c s' st ev U H) as (-> & -> & ->). split; [reflexivity|]. split; [|split; apply le_n]. unfold step in H.
    destruct (do_command m (cen s) c) as [[[e' st'] ps] ev'] eqn:D. injection H as <- _ _. cbn. destruct c; command_cases D; rewrite ?U in *; cbn; first [assumption|discriminate|reflexivity].
  - destruct (closed_command s Peripheral m c s' st ev U H) as (-> & -> & ->). split; [reflexivity|]. split; [|split; apply le_n]. unfold step in H.
    destruct (do_command m (per s) c) as [[[e' st'] ps] ev'] eqn:D. injection H as <- _ _. cbn. destruct c; command_cases D; rewrite ?U in *; cbn; first [assumption|discriminate|reflexivity].
  - unfold step in H. destruct (to_cen s) as [|q r] eqn:T; [injection H as <- <- <-; rewrite T; auto|]. rewrite (closed_receive m _ q U) in H. injection H as <- <- <-. cbn. rewrite app_nil_r. auto.
  - unfold step in H. destruct (to_per s) as [|q r] eqn:T; [injection H as <- <- <-; rewrite T; auto|]. rewrite (closed_receive m _ q U) in H. injection H as <- <- <-. cbn. rewrite app_nil_r. auto.
Qed.

Lemma settles' : forall c p i lat tmo h s m, history (connected c p i lat tmo) h s ->
  exists ds s', history (connected c p i lat tmo) (ds ++ h) s' /\ quiet s' /\ forall e, In e ds -> exists x, what e = Deliver x m.
Proof.
  intros c p i lat tmo h s m H. destruct (settles c p i lat tmo m (pending s) h s H (le_n _)) as (ds & s' & A & B & _ & D). exists ds, s'. auto.
Qed.

Lemma never_aborts : forall c p i lat tmo h s o, history (connected c p i lat tmo) h s -> step s o <> None.
Proof.
  intros c p i lat tmo h s o H. apply step_defined. eapply history_roles; exact H.
Qed.

