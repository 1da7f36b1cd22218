(** Proofs about synchronous link parameters. *)
From Verif Require Import Prelude BasebandProofs Sco ScoSpec.
Open Scope N_scope.
Ltac Zify.zify_post_hook ::= Z.div_mod_to_equations.

Lemma allowed_bit_spec pt k : allowed_bit pt (2 ^ k) = N.testbit pt k.
Proof.
  unfold allowed_bit. destruct (N.testbit pt k) eqn:E.
  - rewrite (proj2 (N.eqb_neq _ _)); [reflexivity|]. intros H. apply (f_equal (fun x => N.testbit x k)) in H.
    rewrite N.land_spec, E, N.pow2_bits_true, N.bits_0 in H. discriminate.
  - rewrite (proj2 (N.eqb_eq _ _)); [reflexivity|]. apply N.bits_inj. intros i. rewrite N.land_spec, N.pow2_bits_eqb, N.bits_0.
    destruct (N.eqb_spec k i) as [<-|]; [now rewrite E|apply andb_false_r].
Qed.

Definition packet_of (t : esco_type) : packet := Packet (max_length t) (slots_of t).

Lemma accepted_spec pt q : same_edr pt ->
  In q (accepted_packets pt) <-> q = Packet 0 1 \/ exists t, type_allowed pt t = true /\ q = packet_of t.
Proof.
  intros S. unfold accepted_packets.
  change 0x08 with (2 ^ 3). change 0x10 with (2 ^ 4). change 0x20 with (2 ^ 5). change 0x40 with (2 ^ 6). change 0x80 with (2 ^ 7).
  change 0x100 with (2 ^ 8). change 0x200 with (2 ^ 9). rewrite !allowed_bit_spec, S.
  split.
  - rewrite !in_app_iff. intros [[<-|[]]|H]; [now left|right].
    repeat (destruct H as [H|H]);
      match type of H with In _ (if ?b then _ else _) => destruct b eqn:E end; try easy; destruct H as [<-|[]].
    + now exists EV3. + now exists EV4. + now exists EV5. + now exists EDR2_EV3.
    + now exists EDR2_EV5. + exists EDR3_EV3. cbn. now rewrite S. + now exists EDR3_EV5.
  - intros [->|(t & A & ->)]; [now left|]. rewrite !in_app_iff. right.
    destruct t; cbn in A; rewrite ?S in A; rewrite A; cbn; auto 12.
Qed.

(** * The search *)
Definition interval_of (p : params) (tx rx : packet) : N :=
  let i := N.min ((1600 * length tx) / transmit_bandwidth p) ((1600 * length rx) / receive_bandwidth p) in N.min (i - i mod 2) 254.
Definition slots_for (p : params) (tx rx : packet) : N := slots tx + slots rx + window_for (retransmission_effort p) rx tx.
Definition link_of (p : params) (tx rx : packet) : link :=
  let i := interval_of p tx rx in
  Link (i mod 256) (window_for (retransmission_effort p) rx tx mod 256)
    ((receive_bandwidth p * i + 1600 - 1) / 1600 mod 65536) ((transmit_bandwidth p * i + 1600 - 1) / 1600 mod 65536)
    (air_coding_to_air_mode (N.land (voice_setting p) 3)) true.
Definition valid (p : params) (c : packet * packet) : bool :=
  negb (length (fst c) =? 0) && negb (length (snd c) =? 0) &&
  (slots_for p (fst c) (snd c) <=? interval_of p (fst c) (snd c)) && ((slots_for p (fst c) (snd c) * 1250) / 2 <=? 1000 * Sco.max_latency p).

Lemma try_spec p tx rx b : try_combination p tx rx b =
  if valid p (tx, rx) && (slots_for p tx rx * usage_den b <=? usage_num b * interval_of p tx rx)
  then Best (slots_for p tx rx) (interval_of p tx rx) (Some (link_of p tx rx)) else b.
Proof.
  unfold try_combination, valid. cbn [fst snd]. cbv zeta. fold (interval_of p tx rx). fold (slots_for p tx rx).
  destruct (length tx =? 0); [reflexivity|]. destruct (length rx =? 0); [reflexivity|]. cbn [negb andb].
  rewrite (N.ltb_antisym (slots_for p tx rx) (interval_of p tx rx)). destruct (slots_for p tx rx <=? interval_of p tx rx); [|reflexivity].
  cbn [negb]. rewrite (N.ltb_antisym _ (1000 * Sco.max_latency p)). destruct (slots_for p tx rx * 1250 / 2 <=? 1000 * Sco.max_latency p); [|reflexivity].
  cbn [negb andb]. destruct (_ <=? _); reflexivity.
Qed.

Definition pairs (p : params) : list (packet * packet) := list_prod (accepted_packets (packet_type p)) (accepted_packets (packet_type p)).

Lemma fold_prod {A B C} (f : A -> B -> C -> C) l m : forall b,
  fold_left (fun b x => fold_left (fun b y => f x y b) m b) l b = fold_left (fun b c => f (fst c) (snd c) b) (list_prod l m) b.
Proof.
  induction l as [|x l IH]; intros b; [reflexivity|]. cbn [fold_left list_prod]. rewrite fold_left_app, IH. f_equal.
  clear. revert b. induction m as [|y m IH]; intros b; [reflexivity|]. cbn. apply IH.
Qed.

Lemma slots_pos p tx rx : 0 < slots tx -> 0 < slots_for p tx rx.
Proof. unfold slots_for. lia. Qed.

Record Good (p : params) (done : list (packet * packet)) (b : best) : Prop := {
  g_none : chosen b = None -> usage_num b = 1 /\ usage_den b = 1;
  g_pos : 0 < usage_den b;
  g_best : forall c, In c done -> valid p c = true -> chosen b <> None /\ usage_num b * interval_of p (fst c) (snd c) <= slots_for p (fst c) (snd c) * usage_den b;
  g_from : forall l, chosen b = Some l -> exists c, In c done /\ valid p c = true /\
    usage_num b = slots_for p (fst c) (snd c) /\ usage_den b = interval_of p (fst c) (snd c) /\ l = link_of p (fst c) (snd c) }.

Lemma valid_le p c : valid p c = true -> slots_for p (fst c) (snd c) <= interval_of p (fst c) (snd c).
Proof. unfold valid. rewrite !andb_true_iff, !N.leb_le. tauto. Qed.

Lemma frac_trans a b c d e f : 0 < d -> a * d <= c * b -> c * f <= e * d -> a * f <= e * b.
Proof. intros D X Y. apply (N.mul_le_mono_pos_r _ _ d D). nia. Qed.

Lemma good_fold p l : forall done b, (forall c, In c l -> 0 < slots (fst c)) -> Good p done b ->
  Good p (done ++ l) (fold_left (fun b c => try_combination p (fst c) (snd c) b) l b).
Proof.
  induction l as [|[tx rx] l IH]; intros done b P G; [now rewrite app_nil_r|]. cbn [fold_left fst snd].
  replace (done ++ (tx, rx) :: l) with ((done ++ [(tx, rx)]) ++ l) by (now rewrite <- app_assoc). apply IH; [intros c I; apply P; now right|].
  rewrite try_spec. pose proof (slots_pos p tx rx (P (tx, rx) (or_introl eq_refl))) as SP.
  destruct (valid p (tx, rx)) eqn:V; cbn [andb].
  - pose proof (valid_le _ _ V) as LE. cbn [fst snd] in LE. destruct (N.leb_spec (slots_for p tx rx * usage_den b) (usage_num b * interval_of p tx rx)) as [L|L].
    + constructor; cbn [chosen usage_num usage_den].
      * discriminate.
      * lia.
      * intros c I Vc. split; [discriminate|]. apply in_app_iff in I as [I|[<-|[]]]; [|cbn [fst snd]; lia].
        destruct (g_best _ _ _ G c I Vc) as [_ B]. exact (frac_trans _ _ _ _ _ _ (g_pos _ _ _ G) L B).
      * intros l' [= <-]. exists (tx, rx). split; [apply in_app_iff; right; now left|]. split; [exact V|]. cbn [fst snd]. auto.
    + constructor.
      * apply G.
      * apply G.
      * intros c I Vc. apply in_app_iff in I as [I|[<-|[]]]; [exact (g_best _ _ _ G c I Vc)|]. cbn [fst snd]. split; [|lia].
        intros N. destruct (g_none _ _ _ G N) as [E1 E2]. rewrite E1, E2 in L. lia.
      * intros l' E. destruct (g_from _ _ _ G l' E) as (c & I & R). exists c. split; [apply in_app_iff; now left|exact R].
  - constructor; try apply G.
    + intros c I Vc. apply in_app_iff in I as [I|[<-|[]]]; [exact (g_best _ _ _ G c I Vc)|congruence].
    + intros l' E. destruct (g_from _ _ _ G l' E) as (c & I & R). exists c. split; [apply in_app_iff; now left|exact R].
Qed.

Lemma accepted_slots pt q : In q (accepted_packets pt) -> 0 < slots q.
Proof.
  unfold accepted_packets. rewrite !in_app_iff. intros H.
  repeat (destruct H as [H|H]); try (match type of H with In _ (if ?b then _ else _) => destruct b end); cbn in H;
    repeat (destruct H as [H|H]); try contradiction; subst q; reflexivity.
Qed.

Lemma search_good p : Good p (pairs p) (search p).
Proof.
  unfold search. cbv zeta. rewrite fold_prod. apply (good_fold p (pairs p) []).
  - intros [a c] I. apply in_prod_iff in I as [I _]. exact (accepted_slots _ _ I).
  - constructor; cbn; try easy; lia.
Qed.

(** * The link chosen is admissible, and the best *)
Lemma window_slots e tx rx : window_for e (packet_of rx) (packet_of tx) = retransmission_slots e (slots_of tx + slots_of rx).
Proof.
  unfold window_for, retransmission_slots, packet_of. cbn [slots]. destruct (N.eqb_spec e 0) as [->|]; [reflexivity|].
  destruct (e =? 1); [lia|]. destruct (e =? 2); lia.
Qed.
Lemma window_bound e tx rx : retransmission_slots e (slots_of tx + slots_of rx) <= 12.
Proof. unfold retransmission_slots. destruct (e =? 1), (e =? 2), tx, rx; cbn; lia. Qed.

Lemma interval_even p tx rx : interval_of p tx rx <= 254 /\ interval_of p tx rx mod 2 = 0.
Proof.
  unfold interval_of. cbv zeta. set (i := N.min (_ / _) _). clearbody i.
  assert (E : i - i mod 2 = (i / 2) * 2) by lia. rewrite E.
  destruct (N.min_spec (i / 2 * 2) 254) as [[L ->]|[_ ->]]; [|now split].
  split; [lia|apply N.mod_mul; discriminate].
Qed.
Lemma interval_fits p tx rx : 0 < transmit_bandwidth p -> 0 < receive_bandwidth p ->
  transmit_bandwidth p * interval_of p tx rx <= 1600 * length tx /\ receive_bandwidth p * interval_of p tx rx <= 1600 * length rx.
Proof.
  intros A B. unfold interval_of. cbv zeta. set (x := 1600 * length tx / transmit_bandwidth p). set (y := 1600 * length rx / receive_bandwidth p).
  assert (X : transmit_bandwidth p * x <= 1600 * length tx) by (apply N.mul_div_le; lia).
  assert (Y : receive_bandwidth p * y <= 1600 * length rx) by (apply N.mul_div_le; lia).
  clearbody x y. assert (L : N.min (N.min x y - N.min x y mod 2) 254 <= N.min x y) by lia.
  split; (eapply N.le_trans; [apply N.mul_le_mono_l; exact L|]).
  - eapply N.le_trans; [apply N.mul_le_mono_l; apply N.le_min_l|exact X].
  - eapply N.le_trans; [apply N.mul_le_mono_l; apply N.le_min_r|exact Y].
Qed.
Lemma interval_max p tx rx i : 0 < transmit_bandwidth p -> 0 < receive_bandwidth p -> i <= 254 -> i mod 2 = 0 ->
  transmit_bandwidth p * i <= 1600 * length tx -> receive_bandwidth p * i <= 1600 * length rx -> i <= interval_of p tx rx.
Proof.
  intros A B C D E F. unfold interval_of. cbv zeta.
  assert (X : i <= 1600 * length tx / transmit_bandwidth p) by (apply N.div_le_lower_bound; lia).
  assert (Y : i <= 1600 * length rx / receive_bandwidth p) by (apply N.div_le_lower_bound; lia).
  set (x := 1600 * length tx / transmit_bandwidth p) in *. set (y := 1600 * length rx / receive_bandwidth p) in *.
  clearbody x y. clear - C D X Y. assert (Z : i <= N.min x y) by lia. set (m := N.min x y) in *. clearbody m. lia.
Qed.

Lemma max_length_bound t : 0 < max_length t <= 540.
Proof. destruct t; cbn; lia. Qed.

Lemma ceil_bounds bw i len : 0 < bw -> 0 < i -> bw * i <= 1600 * len ->
  0 < (bw * i + 1600 - 1) / 1600 <= len /\ bw * i <= 1600 * ((bw * i + 1600 - 1) / 1600).
Proof. intros A B C. assert (P : 0 < bw * i) by nia. set (x := bw * i) in *. clearbody x. lia. Qed.

Lemma land3 v : N.land v 3 = v mod 4.
Proof. change 3 with (N.ones 2). now rewrite N.land_ones. Qed.
Lemma air_mode_spec v : air_coding_to_air_mode (N.land v 3) = air_mode_of v.
Proof.
  rewrite land3. unfold air_mode_of, air_coding_to_air_mode. assert (H : v mod 4 < 4) by (apply N.mod_lt; discriminate).
  assert (v mod 4 = 0 \/ v mod 4 = 1 \/ v mod 4 = 2 \/ v mod 4 = 3) as [-> | [-> | [-> | ->]]] by (clear - H; lia); reflexivity.
Qed.

Lemma link_admissible p tx rx : 0 < transmit_bandwidth p -> 0 < receive_bandwidth p ->
  type_allowed (packet_type p) tx = true -> type_allowed (packet_type p) rx = true ->
  valid p (packet_of tx, packet_of rx) = true ->
  admissible p tx rx (link_of p (packet_of tx) (packet_of rx)) /\
  slots_used tx rx (link_of p (packet_of tx) (packet_of rx)) = slots_for p (packet_of tx) (packet_of rx) /\
  transmission_interval (link_of p (packet_of tx) (packet_of rx)) = interval_of p (packet_of tx) (packet_of rx).
Proof.
  intros A B TX RX V. unfold valid in V. cbn [fst snd] in V. rewrite !andb_true_iff, !N.leb_le in V. destruct V as (((_ & _) & V1) & V2).
  unfold slots_for in *. rewrite window_slots in *. cbn [packet_of slots length] in *.
  destruct (interval_even p (packet_of tx) (packet_of rx)) as [I1 I2]. destruct (interval_fits p (packet_of tx) (packet_of rx) A B) as [I3 I4].
  unfold link_of. cbv zeta. rewrite window_slots. set (i := interval_of p (packet_of tx) (packet_of rx)) in *. cbn [packet_of length] in I3, I4.
  pose proof (window_bound (retransmission_effort p) tx rx) as WB. set (w := retransmission_slots _ _) in *.
  assert (SP : 2 <= slots_of tx + slots_of rx) by (destruct tx, rx; cbn; lia).
  assert (IP : 0 < i) by lia.
  destruct (ceil_bounds _ _ _ A IP I3) as [[X1 X2] X3]. destruct (ceil_bounds _ _ _ B IP I4) as [[Y1 Y2] Y3].
  pose proof (max_length_bound tx). pose proof (max_length_bound rx).
  set (u := (transmit_bandwidth p * i + 1600 - 1) / 1600) in *. set (v := (receive_bandwidth p * i + 1600 - 1) / 1600) in *.
  assert (E1 : u mod 65536 = u) by (apply N.mod_small; lia). assert (E2 : v mod 65536 = v) by (apply N.mod_small; lia).
  assert (E3 : i mod 256 = i) by (apply N.mod_small; lia). assert (E4 : w mod 256 = w) by (apply N.mod_small; lia).
  rewrite E1, E2, E3, E4. unfold slots_used. cbn [transmission_interval retransmission_window]. split; [|split; reflexivity].
  constructor; cbn [transmission_interval retransmission_window rx_packet_length tx_packet_length]; try assumption; try (split; assumption); try reflexivity.
  clear - V2. lia.
Qed.

Lemma admissible_valid p tx rx l : 0 < transmit_bandwidth p -> 0 < receive_bandwidth p -> admissible p tx rx l ->
  valid p (packet_of tx, packet_of rx) = true /\ slots_for p (packet_of tx) (packet_of rx) = slots_used tx rx l /\
  transmission_interval l <= interval_of p (packet_of tx) (packet_of rx).
Proof.
  intros A B AD. destruct AD.
  assert (L : transmission_interval l <= interval_of p (packet_of tx) (packet_of rx)).
  { apply interval_max; try assumption; try tauto; cbn [packet_of length].
    - eapply N.le_trans; [exact ad_tx_bandwidth|]. lia.
    - eapply N.le_trans; [exact ad_rx_bandwidth|]. lia. }
  assert (S : slots_for p (packet_of tx) (packet_of rx) = slots_used tx rx l).
  { unfold slots_for, slots_used. rewrite window_slots, ad_window. reflexivity. }
  split; [|auto]. unfold valid. cbn [fst snd]. rewrite S. unfold slots_used. rewrite !andb_true_iff, !N.leb_le. cbn [packet_of length].
  pose proof (max_length_bound tx). pose proof (max_length_bound rx).
  rewrite !negb_true_iff, !N.eqb_neq. repeat split; lia.
Qed.

Lemma zero_not_valid p c : length (fst c) = 0 \/ length (snd c) = 0 -> valid p c = false.
Proof. unfold valid. intros [-> | ->]; [reflexivity|]. cbn. now rewrite andb_false_r. Qed.

Lemma pair_types p c : same_edr (packet_type p) -> In c (pairs p) -> valid p c = true ->
  exists tx rx, c = (packet_of tx, packet_of rx) /\ type_allowed (packet_type p) tx = true /\ type_allowed (packet_type p) rx = true.
Proof.
  intros S I V. destruct c as [a b]. apply in_prod_iff in I as [Ia Ib]. apply accepted_spec in Ia; [|exact S]. apply accepted_spec in Ib; [|exact S].
  destruct Ia as [->|(tx & TA & ->)]; [rewrite zero_not_valid in V by (left; reflexivity); discriminate|].
  destruct Ib as [->|(rx & RA & ->)]; [rewrite zero_not_valid in V by (right; reflexivity); discriminate|]. eauto.
Qed.
Lemma types_pair p tx rx : same_edr (packet_type p) -> type_allowed (packet_type p) tx = true -> type_allowed (packet_type p) rx = true ->
  In (packet_of tx, packet_of rx) (pairs p).
Proof. intros S A B. apply in_prod_iff. split; (apply accepted_spec; [exact S|right; eauto]). Qed.

Lemma searched_extended p l : chosen (search p) = Some l -> extended l = true.
Proof. intros E. destruct (g_from _ _ _ (search_good p) l E) as (c & _ & _ & _ & _ & ->). reflexivity. Qed.

Lemma extended_ok p l : same_edr (packet_type p) -> get_link_parameters p = Some l -> extended l = true ->
  exists tx rx, admissible p tx rx l /\ air_mode l = air_mode_of (voice_setting p) /\
    forall tx' rx' l', admissible p tx' rx' l' ->
      slots_used tx rx l * transmission_interval l' <= slots_used tx' rx' l' * transmission_interval l.
Proof.
  intros S G E. unfold get_link_parameters in G. destruct (N.eqb_spec (transmit_bandwidth p) 0) as [|A]; [discriminate|].
  destruct (N.eqb_spec (receive_bandwidth p) 0) as [|B]; [discriminate|]. cbn [orb] in G.
  assert (A' : 0 < transmit_bandwidth p) by lia. assert (B' : 0 < receive_bandwidth p) by lia.
  assert (CH : chosen (search p) = Some l).
  { destruct (chosen (search p)) as [x|] eqn:C; [exact G|]. exfalso. destruct (_ || _); [discriminate|].
    destruct (allowed_bit _ 4); [injection G as <-; discriminate|]. destruct (allowed_bit _ 2); [injection G as <-; discriminate|].
    destruct (allowed_bit _ 1); [injection G as <-; discriminate|discriminate]. }
  pose proof (search_good p) as SG. destruct (g_from _ _ _ SG l CH) as (c & I & V & U1 & U2 & ->).
  destruct (pair_types p c S I V) as (tx & rx & -> & TA & RA). cbn [fst snd] in *.
  destruct (link_admissible p tx rx A' B' TA RA V) as (AD & SU & TI). exists tx, rx. split; [exact AD|]. split; [apply air_mode_spec|].
  intros tx' rx' l' AD'. destruct (admissible_valid p tx' rx' l' A' B' AD') as (V' & S' & L').
  destruct (g_best _ _ _ SG _ (types_pair p tx' rx' S (ad_tx _ _ _ _ AD') (ad_rx _ _ _ _ AD')) V') as [_ X]. cbn [fst snd] in X.
  rewrite U1, U2, S' in X. rewrite SU, TI. eapply N.le_trans; [|exact X]. apply N.mul_le_mono_l. exact L'.
Qed.

Lemma extended_found p tx rx l : same_edr (packet_type p) -> 0 < transmit_bandwidth p -> 0 < receive_bandwidth p -> admissible p tx rx l ->
  exists l', get_link_parameters p = Some l' /\ extended l' = true.
Proof.
  intros S A B AD. destruct (admissible_valid p tx rx l A B AD) as (V & _ & _).
  destruct (g_best _ _ _ (search_good p) _ (types_pair p tx rx S (ad_tx _ _ _ _ AD) (ad_rx _ _ _ _ AD)) V) as [X _].
  unfold get_link_parameters. rewrite (proj2 (N.eqb_neq _ _)) by lia. rewrite (proj2 (N.eqb_neq _ _)) by lia. cbn [orb].
  destruct (chosen (search p)) as [x|] eqn:C; [|congruence]. exists x. split; [reflexivity|]. exact (searched_extended p x C).
Qed.

Lemma sco_ok p l : get_link_parameters p = Some l -> extended l = false ->
  exists t, hv_allowed (packet_type p) t = true /\ (forall t', hv_allowed (packet_type p) t' = true -> hv_length t' <= hv_length t) /\
    l = Link (hv_interval t) 0 (hv_length t) (hv_length t) (air_mode_of (voice_setting p)) false /\
    retransmission_effort p <> 1 /\ retransmission_effort p <> 2.
Proof.
  intros G E. unfold get_link_parameters in G. destruct (_ || _); [discriminate|].
  destruct (chosen (search p)) as [x|] eqn:C; [injection G as ->; rewrite (searched_extended p l C) in E; discriminate|].
  destruct (N.eqb_spec (retransmission_effort p) 1) as [|E1]; [discriminate|]. destruct (N.eqb_spec (retransmission_effort p) 2) as [|E2]; [discriminate|]. cbn [orb] in G.
  change (allowed_bit (packet_type p) 4) with (allowed_bit (packet_type p) (2 ^ 2)) in G.
  change (allowed_bit (packet_type p) 2) with (allowed_bit (packet_type p) (2 ^ 1)) in G.
  change (allowed_bit (packet_type p) 1) with (allowed_bit (packet_type p) (2 ^ 0)) in G.
  rewrite !allowed_bit_spec in G. rewrite air_mode_spec in G.
  destruct (N.testbit (packet_type p) 2) eqn:T2; [|destruct (N.testbit (packet_type p) 1) eqn:T1; [|destruct (N.testbit (packet_type p) 0) eqn:T0; [|discriminate]]];
    injection G as <-.
  - exists HV3. split; [exact T2|]. split; [intros []; cbn; lia|auto].
  - exists HV2. split; [exact T1|]. split; [intros []; cbn; try lia; congruence|auto].
  - exists HV1. split; [exact T0|]. split; [intros []; cbn; try lia; congruence|auto].
Qed.

Lemma no_overflow p tx rx : 0 < transmit_bandwidth p -> 0 < receive_bandwidth p ->
  1600 * max_length tx < 2 ^ 32 /\ transmit_bandwidth p * interval_of p (packet_of tx) (packet_of rx) + 1600 < 2 ^ 32 /\
  receive_bandwidth p * interval_of p (packet_of tx) (packet_of rx) + 1600 < 2 ^ 32.
Proof.
  intros A B. destruct (interval_fits p (packet_of tx) (packet_of rx) A B) as [X Y]. cbn [packet_of length] in *.
  pose proof (max_length_bound tx). pose proof (max_length_bound rx). change (2 ^ 32) with 4294967296. lia.
Qed.

(** * Negotiation *)
Lemma common_testbit a b k : k < 10 -> N.testbit (common_types a b) k = if k <? 6 then N.testbit a k && N.testbit b k else N.testbit a k || N.testbit b k.
Proof.
  intros K. unfold common_types. rewrite N.lor_spec, !N.land_spec, N.lor_spec.
  assert (X : N.testbit 0x3f k = (k <? 6)).
  { change 0x3f with (N.ones 6). destruct (N.ltb_spec k 6); [now apply N.ones_spec_low|now apply N.ones_spec_high]. }
  assert (Y : N.testbit 0x3c0 k = negb (k <? 6)).
  { change 0x3c0 with (N.shiftl (N.ones 4) 6). destruct (N.ltb_spec k 6); [now apply N.shiftl_spec_low|].
    rewrite N.shiftl_spec_high' by assumption. apply N.ones_spec_low. lia. }
  rewrite X, Y. destruct (k <? 6), (N.testbit a k), (N.testbit b k); reflexivity.
Qed.

Lemma common_allowed a b t : type_allowed (common_types a b) t = type_allowed a t && type_allowed b t.
Proof.
  destruct t; cbn [type_allowed]; rewrite common_testbit by reflexivity; cbn [N.ltb N.compare Pos.compare Pos.compare_cont];
    try reflexivity; apply negb_orb.
Qed.
Lemma common_hv a b t : hv_allowed (common_types a b) t = hv_allowed a t && hv_allowed b t.
Proof. destruct t; cbn [hv_allowed]; rewrite common_testbit by reflexivity; reflexivity. Qed.

Lemma negotiated_ok s mine peer l : negotiate s mine peer = Some l ->
  exists p, get_link_parameters p = Some l /\
    (forall t, type_allowed (packet_type p) t = true <-> type_allowed (packet_type mine) t = true /\ type_allowed (packet_type peer) t = true) /\
    (forall t, hv_allowed (packet_type p) t = true <-> hv_allowed (packet_type mine) t = true /\ hv_allowed (packet_type peer) t = true) /\
    within_latency (Sco.max_latency mine) (Sco.max_latency p) /\ within_latency (Sco.max_latency peer) (Sco.max_latency p) /\
    transmit_bandwidth p = transmit_bandwidth mine /\ receive_bandwidth p = receive_bandwidth mine /\
    (transmit_bandwidth peer = receive_bandwidth p \/ transmit_bandwidth peer = 0xffff) /\
    (is_esco_request s = true -> receive_bandwidth peer = transmit_bandwidth p \/ receive_bandwidth peer = 0xffff) /\
    voice_setting p = voice_setting mine /\ voice_setting peer / 4 = voice_setting mine / 4 /\
    (is_sco_request s = true -> retransmission_effort p = 0).
Proof.
  unfold negotiate. destruct (negotiated s mine peer) as [p|] eqn:NE; [|discriminate]. intros G. exists p. split; [exact G|]. clear G.
  unfold negotiated in NE.
  destruct (negb (transmit_bandwidth peer =? 65535) && negb (transmit_bandwidth peer =? receive_bandwidth mine)) eqn:B1; [discriminate|].
  destruct (is_esco_request s && negb (receive_bandwidth peer =? 65535) && negb (receive_bandwidth peer =? transmit_bandwidth mine)) eqn:B2; [discriminate|].
  destruct (N.eqb_spec (N.ldiff (voice_setting peer) 3) (N.ldiff (voice_setting mine) 3)) as [V|]; [|discriminate]. cbn [negb] in NE.
  destruct (common_types (packet_type peer) (packet_type mine) =? 960); [discriminate|].
  destruct (common_effort s (retransmission_effort peer) (retransmission_effort mine)) as [e|] eqn:CE; [|discriminate].
  injection NE as <-. cbn [packet_type Sco.max_latency transmit_bandwidth receive_bandwidth voice_setting retransmission_effort].
  split; [intros t; rewrite common_allowed, andb_true_iff; tauto|]. split; [intros t; rewrite common_hv, andb_true_iff; tauto|].
  unfold within_latency.
  split. { destruct (N.eqb_spec (Sco.max_latency peer) 65535); [now right; apply N.le_refl|]. destruct (N.eqb_spec (Sco.max_latency mine) 65535); [now left|right; lia]. }
  split. { destruct (N.eqb_spec (Sco.max_latency peer) 65535); [now left|]. destruct (N.eqb_spec (Sco.max_latency mine) 65535); right; lia. }
  split; [reflexivity|]. split; [reflexivity|].
  split. { destruct (N.eqb_spec (transmit_bandwidth peer) 65535); [now right|]. destruct (N.eqb_spec (transmit_bandwidth peer) (receive_bandwidth mine)); [now left|discriminate]. }
  split. { intros S. rewrite S in B2. destruct (N.eqb_spec (receive_bandwidth peer) 65535); [now right|]. destruct (N.eqb_spec (receive_bandwidth peer) (transmit_bandwidth mine)); [now left|discriminate]. }
  split; [reflexivity|]. split.
  { change 3 with (N.ones 2) in V. rewrite !N.ldiff_ones_r in V. apply (f_equal (fun x => N.shiftr x 2)) in V.
    rewrite !N.shiftr_shiftl_l, N.shiftl_0_r, !N.shiftl_0_r, !N.shiftr_div_pow2 in V by lia. exact V. }
  intros S. unfold common_effort in CE. rewrite S in CE. now injection CE as <-.
Qed.

Lemma effort_ok s mine peer p : negotiated s mine peer = Some p -> is_sco_request s = false ->
  In (retransmission_effort mine) [0; 1; 2; 255] -> In (retransmission_effort peer) [0; 1; 2; 255] ->
  effort_agrees (retransmission_effort mine) (retransmission_effort p) /\ effort_agrees (retransmission_effort peer) (retransmission_effort p).
Proof.
  intros NE S A B. unfold negotiated in NE. destruct (_ && negb _) in NE; [discriminate|]. destruct (_ && negb _) in NE; [discriminate|].
  destruct (negb _) in NE; [discriminate|]. destruct (common_types _ _ =? _); [discriminate|].
  destruct (common_effort s (retransmission_effort peer) (retransmission_effort mine)) as [e|] eqn:CE; [|discriminate].
  injection NE as <-. cbn [retransmission_effort]. unfold common_effort in CE. rewrite S in CE. unfold effort_agrees. cbn in A, B.
  destruct A as [A|[A|[A|[A|[]]]]], B as [B|[B|[B|[B|[]]]]]; rewrite <- A, <- B in *; cbn in CE; try discriminate; injection CE as <-; lia.
Qed.

(** * Extended links *)
Lemma is_extended_spec p : packet_type p < 1024 -> is_extended p = existsb (type_allowed (packet_type p)) all_types.
Proof.
  intros H. set (x := packet_type p) in *.
  enough (E : is_extended (Params 0 0 0 0 0 x) = existsb (type_allowed x) all_types) by exact E.
  apply eqb_prop. revert H. change 1024 with (N.of_nat 1024).
  apply (sweep_n 1024 (fun x => Bool.eqb (is_extended (Params 0 0 0 0 0 x)) (existsb (type_allowed x) all_types))).
  vm_compute. reflexivity.
Qed.
