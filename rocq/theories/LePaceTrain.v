(** The interval of periodic advertising: proofs. *)
From Verif Require Import Prelude Address Rpa Table LeTypes LeAdvertise LeLists LeScan LeInitiate LeHost LeTac LeFrame LeStep LeSets LeOutputs LeHistory.
From Verif Require Import LeListsSpec LeListsProofs LeAdvertSpec LeAdvertProofs LeAdvertSends LeFilterSpec LeFilterMore LeFilterAdv LeTimeSpec LeTime LeTimeCount LePaceSpec LePaceTrainSpec.
Open Scope N_scope.

Lemma train_app a b : train_packets (a ++ b) = train_packets a + train_packets b.
Proof. unfold train_packets, lenN. rewrite filter_app, app_length. lia. Qed.
Lemma train_none o : (forall p, ~ In (Sent p) o) -> train_packets o = 0.
Proof.
  intros H. unfold train_packets. induction o as [|x o IH]; [reflexivity|]. cbn [filter].
  destruct x as [p|e]; [elim (H p); now left|]. apply IH. intros p I. apply (H p). now right.
Qed.

Lemma advertise_set_train s now a a' o : advertise_set s now a = Some (a', o) ->
  train_packets o = (if periodic_latch a && (next_periodic a <=? now) then 1 else 0)
  /\ next_periodic a' = next_periodic a + train_packets o * (periodic_interval a * 625).
Proof.
  unfold advertise_set. intros H. destruct (set_timeout s now a) as [a1 o1] eqn:E1. destruct (set_limit s a1) as [a2 o2] eqn:E2.
  destruct (set_advertise now a2) as [[a3 o3]|] eqn:E3; [|discriminate]. destruct (set_periodic now a3) as [a4 o4] eqn:E4. injection H as <- <-.
  rewrite !train_app.
  assert (X1 : train_packets o1 = 0 /\ periodic_latch a1 = periodic_latch a /\ next_periodic a1 = next_periodic a /\ periodic_interval a1 = periodic_interval a).
  { unfold set_timeout in E1. destruct (timeout a); [destruct (_ && _) in E1|]; injection E1 as <- <-; try (repeat split; reflexivity).
    split; [|repeat split; reflexivity]. apply train_none. intros p I. apply in_app_iff in I as [I|I];
      repeat match type of I with In _ (if ?b then _ else _) => destruct b end; cbn in I; intuition congruence. }
  assert (X2 : train_packets o2 = 0 /\ periodic_latch a2 = periodic_latch a1 /\ next_periodic a2 = next_periodic a1 /\ periodic_interval a2 = periodic_interval a1).
  { unfold set_limit in E2. destruct (_ && _) in E2; injection E2 as <- <-; [|repeat split; reflexivity].
    split; [|repeat split; reflexivity]. apply train_none. intros p I. destruct (le_event_unmasked _ _) in I; cbn in I; intuition congruence. }
  assert (X3 : train_packets o3 = 0 /\ periodic_latch a3 = periodic_latch a2 /\ next_periodic a3 = next_periodic a2 /\ periodic_interval a3 = periodic_interval a2).
  { unfold set_advertise in E3. destruct (_ && _) in E3; [|injection E3 as <- <-; repeat split; reflexivity].
    destruct (legacy_pdus _) in E3; [destruct (set_legacy_pdu _) in E3; [|discriminate]|]; injection E3 as <- <-; repeat split; reflexivity. }
  destruct X1 as (-> & P1 & Q1 & R1). destruct X2 as (-> & P2 & Q2 & R2). destruct X3 as (-> & P3 & Q3 & R3).
  unfold set_periodic in E4. rewrite P3, P2, P1, Q3, Q2, Q1, R3, R2, R1 in E4.
  destruct (periodic_latch a && (next_periodic a <=? now)); injection E4 as <- <-; le_simpl.
  - split; [reflexivity|]. rewrite !N.add_0_l. unfold train_packets. cbn [filter]. change (lenN [Sent (AirPeriodic (adv_address a3) (sid a3) (power a3) (periodic_interval a) (bytes (periodic_data a3)))]) with 1. lia.
  - split; [reflexivity|]. change (train_packets []) with 0. rewrite Q3, Q2, Q1. lia.
Qed.

Lemma advertise_sets_no_train s now m : forall m' o, advertise_sets s now m = Some (m', o) ->
  (forall x a, In (x, a) m -> periodic_latch a = false) -> train_packets o = 0.
Proof.
  induction m as [|[k a] m IH]; cbn [advertise_sets]; intros m' o H OK; [injection H as <- <-; reflexivity|].
  destruct (advertise_set s now a) as [[a1 o1]|] eqn:E; [|discriminate]. destruct (advertise_sets s now m) as [[m1 o2]|] eqn:M; [|discriminate].
  injection H as <- <-. rewrite train_app. apply advertise_set_train in E as [-> _]. rewrite (OK k a (or_introl eq_refl)).
  exact (IH _ _ eq_refl (fun x b I => OK x b (or_intror I))).
Qed.

Lemma advertise_sets_train s now x a a' o' m : forall m' o, advertise_sets s now m = Some (m', o) -> NoDup (keys m) ->
  (forall y b, In (y, b) m -> y <> x -> periodic_latch b = false) -> lookup m x = Some a -> advertise_set s now a = Some (a', o') ->
  train_packets o = train_packets o'.
Proof.
  induction m as [|[k b] m IH]; cbn [advertise_sets lookup]; intros m' o H ND OK L A; [discriminate|].
  destruct (advertise_set s now b) as [[b1 q1]|] eqn:B; [|discriminate]. destruct (advertise_sets s now m) as [[m1 q2]|] eqn:M; [|discriminate].
  injection H as <- <-. rewrite train_app. unfold keys in ND. cbn [map fst] in ND. inversion ND as [|? ? N1 N2]; subst.
  destruct (N.eqb_spec k x) as [->|NE].
  - injection L as ->. rewrite B in A. injection A as -> ->. rewrite (advertise_sets_no_train _ _ _ _ _ M); [lia|].
    intros y c I. apply (OK y c (or_intror I)). intros ->. apply N1. change x with (fst (x, c)). now apply in_map.
  - apply advertise_set_train in B as [-> _]. rewrite (OK k b (or_introl eq_refl) NE).
    rewrite (IH _ _ eq_refl N2 (fun y c I => OK y c (or_intror I)) L A). reflexivity.
Qed.

Section WithController.
Variable aes : list N -> list N -> list N.
Variable rng : N -> N.
Variable cfg : config.
Notation step := (step aes rng cfg).
Notation history := (history aes rng cfg).

Lemma no_train now s o s' st out : step now s o = Ok s' st out -> o <> Tick -> train_packets out = 0.
Proof.
  intros S NT. pose proof (step_fine _ _ _ _ _ _ _ _ _ S) as F. unfold train_packets.
  assert (X : filter (fun o => match o with Sent (AirPeriodic _ _ _ _ _) => true | _ => false end) out = []).
  { clear S. induction F as [|x l M F IH]; [reflexivity|]. cbn [filter]. destruct x as [[]|e]; try exact IH. exfalso.
    cbn [fine] in M; destruct o as [[]|[]|]; try discriminate M; now elim NT. }
  now rewrite X.
Qed.

Lemma tick_legacy_no_train now s s' st out : step now s Tick = Ok s' st out -> exists o3,
  advertise_sets s now (sets s) = Some (sets s', o3) /\ train_packets out = train_packets o3.
Proof.
  intros H. cbn [LeHost.step] in H. unfold tick, le_advertising in H.
  destruct (legacy_timeout now s) as [s1 o1] eqn:E1. destruct (legacy_advertise now s1) as [s2 o2] eqn:E2.
  assert (T1 : exists a, s1 = with_legacy a s /\ train_packets o1 = 0).
  { unfold legacy_timeout in E1. destruct (l_timeout (legacy s)); [destruct (_ && _) in E1|]; injection E1 as <- <-;
      try (eexists; split; [reflexivity|]; destruct (le_event_unmasked _ _); reflexivity);
      exists (legacy s); (split; [destruct s; reflexivity|reflexivity]). }
  destruct T1 as (a1 & -> & T1).
  assert (T2 : exists a, s2 = with_legacy a s /\ train_packets o2 = 0).
  { unfold legacy_advertise in E2. destruct (_ && _) in E2; [destruct (legacy_pdu_of _) in E2|]; injection E2 as <- <-; eexists; (split; [reflexivity|reflexivity]). }
  destruct T2 as (a2 & -> & T2). change (sets (with_legacy a2 s)) with (sets s) in H.
  assert (forall m, advertise_sets (with_legacy a2 s) now m = advertise_sets s now m) as AE.
  { induction m as [|[k b] m IH]; cbn [advertise_sets]; [reflexivity|]. rewrite IH. reflexivity. }
  rewrite AE in H. destruct (advertise_sets s now (sets s)) as [[m o3]|] eqn:A; [|discriminate].
  destruct (le_scanning now _) as [s3 o4] eqn:S. pose proof (le_scanning_filter rng _ _ _ _ S) as (_ & _ & _ & _ & F4).
  apply le_scanning_frame in S as [sc ->]. injection H as <- <- <-. exists o3. le_simpl. split; [reflexivity|].
  rewrite !train_app, (train_none _ F4), T1, T2. lia.
Qed.

Lemma leaves_train x now o st out h : leaves x o st = true ->
  train_since x (Entry now o st out :: h) = train_since x h /\ train_interval_given x (Entry now o st out :: h) = train_interval_given x h
  /\ train_sent x (Entry now o st out :: h) = train_packets out + train_sent x h.
Proof.
  intros L. cbn [train_since train_interval_given train_sent what status_of sent].
  destruct o as [c|p|]; [|auto|auto]. destruct st as [st|]; [|destruct c; try discriminate; auto; destruct on; auto].
  destruct c; try discriminate; cbn [leaves] in L; auto;
    destruct st; try discriminate; auto; try (destruct on; auto; fail); apply negb_true_iff in L; rewrite ?L; auto.
  destruct on; rewrite ?L; auto.
Qed.

(** What the set has of periodic advertising *)
Record train_is (x : N) (h : list entry) (a : adv_set) : Prop := {
  t_interval : periodic_interval a = train_interval_given x h;
  t_on : periodic_on a = match train_since x h with Some _ => true | None => false end;
  t_runs : enabled a = true -> periodic_on a = true -> periodic_latch a = true }.

Lemma train_history h s : history h s -> forall x, match lookup (sets s) x with Some a => train_is x h a | None => train_since x h = None /\ train_interval_given x h = 0 end.
Proof.
  intros H x. induction H as [addr|h s now o s' st out H IH S]; [now split|].
  pose proof (step_changes _ _ _ _ _ _ _ _ _ S (sets_nodup _ _ _ _ _ H) x) as C.
  remember (lookup (sets s) x) as q. remember (lookup (sets s') x) as r. clear Heqq Heqr.
  destruct C.
  all: try (match goal with L : leaves _ _ _ = true |- _ => destruct (leaves_train _ now _ _ out h L) as (E1 & E2 & _) end; destruct a as [a|];
     [destruct IH as [I1 I2 I3]; split; rewrite ?E1, ?E2; auto|now rewrite E1, E2]).
  all: try (cbn [train_since train_interval_given what status_of]; rewrite ?N.eqb_refl; now split).
  all: try (destruct IH as [I1 I2 I3]; split; cbn [train_since train_interval_given what status_of at_time]; rewrite ?N.eqb_refl; auto; fail).
  all: try (match goal with D : discarded _ |- _ => destruct D as [-> | ->] end; destruct IH as [I1 I2 I3]; split; auto; fail).
  - subst a. destruct o as [a|].
    + destruct IH as [I1 I2 I3]. split; cbn [train_since train_interval_given what status_of]; auto.
    + destruct IH as [I1 I2]. split; cbn [train_since train_interval_given what status_of]; rewrite ?I1, ?I2; try reflexivity. discriminate.
  - destruct IH as [I1 I2 I3]. split; unfold disable_set; le_simpl; auto; discriminate.
  - destruct IH as [I1 I2 I3]. destruct (advertise_set_frame _ _ _ _ _ H0) as (e & n & ne & np & -> & EN).
    split; le_simpl; auto.
Qed.

Lemma lone_is x h : (forall e, In e h -> lone_train x e) -> forall y t, train_since y h = Some t -> y = x.
Proof.
  induction h as [|e h IH]; intros AL y t; cbn [train_since]; [discriminate|]. specialize (IH (fun e I => AL e (or_intror I)) y t).
  pose proof (AL e (or_introl eq_refl)) as A. unfold lone_train in A. destruct (what e) as [c|p|]; try exact IH.
  destruct c; try exact IH; try discriminate; (destruct (status_of e) as [[]|]; try exact IH; try discriminate);
    match goal with |- context [?k =? y] => destruct (N.eqb_spec k y) as [->|]; [|exact IH] end;
    repeat match goal with |- context [if ?b then _ else _] => destruct b end; auto; discriminate.
Qed.

Lemma tick_train x h s now s' st out a : history h s -> (forall e, In e h -> lone_train x e) -> step now s Tick = Ok s' st out ->
  lookup (sets s) x = Some a -> exists a' o', advertise_set s now a = Some (a', o') /\ lookup (sets s') x = Some a' /\ train_packets out = train_packets o'.
Proof.
  intros H AL S L. destruct (tick_legacy_no_train _ _ _ _ _ S) as (o3 & A & ->).
  pose proof (lookup_advertise _ _ _ _ _ x A) as Q. rewrite L in Q. destruct Q as (a' & o' & B & L').
  exists a', o'. split; [exact B|]. split; [exact L'|].
  pose proof (lone_is x h AL) as LT.
  refine (advertise_sets_train _ _ x a a' o' _ _ _ A (sets_nodup _ _ _ _ _ H) _ L B).
  intros y b I NE. destruct (periodic_latch b) eqn:EB; [|reflexivity]. exfalso. apply NE.
  pose proof (in_lookup_nodup _ _ _ (sets_nodup _ _ _ _ _ H) I) as LB.
  pose proof (ok_latch _ _ _ (sets_ok _ _ _ _ _ H y b LB) EB) as ON. pose proof (train_history _ _ H y) as TH. rewrite LB in TH.
  rewrite (t_on _ _ _ TH) in ON. destruct (train_since y h) as [t|] eqn:E; [|discriminate]. exact (LT _ _ E).
Qed.

Lemma train_scheduled x h s : history h s -> (forall e, In e h -> lone_train x e) -> forall a, lookup (sets s) x = Some a ->
  forall t, train_since x h = Some t -> next_periodic a = t + train_sent x h * (periodic_interval a * 625).
Proof.
  induction 1 as [addr|h s now o s' st out H IH S]; intros AL a' L t TS; [discriminate|].
  pose proof (fun e I => AL e (or_intror I)) as AL0. specialize (IH AL0).
  assert (T : o = Tick \/ o <> Tick) by (destruct o as [[]|[]|]; auto; right; discriminate). destruct T as [->|NT].
  - cbn [train_sent train_since what sent] in *.
    destruct (lookup (sets s) x) as [a|] eqn:L0.
    + destruct (tick_train _ _ _ _ _ _ _ _ H AL0 S L0) as (b & o' & A & L' & ->). rewrite L' in L. injection L as ->.
      specialize (IH a eq_refl t TS).
      destruct (advertise_set_train _ _ _ _ _ A) as [_ ->].
      assert (periodic_interval a' = periodic_interval a) as -> by (destruct (advertise_set_frame _ _ _ _ _ A) as (? & ? & ? & ? & -> & _); reflexivity).
      rewrite N.mul_add_distr_r, IH. lia.
    + pose proof (train_history _ _ H x) as TH. rewrite L0 in TH. destruct TH. congruence.
  - pose proof (no_train _ _ _ _ _ _ S NT) as Z.
    pose proof (train_history _ _ H x) as TH.
    pose proof (step_changes _ _ _ _ _ _ _ _ _ S (sets_nodup _ _ _ _ _ H) x) as C. rewrite L in C.
    remember (Some a') as r eqn:R. remember (lookup (sets s) x) as q eqn:Q. symmetry in Q.
    destruct C; try discriminate R; try injection R as <-; try now elim NT.
    all: try (match goal with LV : leaves _ _ _ = true |- _ => destruct (leaves_train _ now _ _ out h LV) as (E1 & _ & E3) end;
      rewrite E1 in TS; rewrite E3, Z, N.add_0_l; exact (IH _ R t TS)).
    all: cbn [train_sent train_since what status_of sent at_time] in TS |- *; rewrite ?N.eqb_refl in TS; rewrite ?N.eqb_refl, ?Z, ?N.add_0_l.
    all: try (exact (IH a eq_refl t TS)).
    all: try discriminate TS.
    all: try (match goal with D : discarded _ |- _ => destruct D as [-> | ->] end; exact (IH a eq_refl t TS)).
    + subst a. destruct o as [a|]; [exact (IH a eq_refl t TS)|]. destruct TH. congruence.
    + exfalso. pose proof (t_on _ _ _ TH) as ON. rewrite TS in ON. congruence.
    + injection TS as <-. unfold enable_periodic. le_simpl. lia.
Qed.

(** A tick sends the next packet of the train only when it is due, and sends it if the set is enabled *)
Theorem train_paced x h s now s' st out : history h s -> (forall e, In e h -> lone_train x e) -> step now s Tick = Ok s' st out ->
  match train_since x h with
  | Some t =>
      let due := t + train_sent x h * (train_interval_given x h * 625) in
      train_packets out <= 1 /\ (train_packets out = 1 -> due <= now) /\ (is_enabled s x -> due <= now -> train_packets out = 1)
  | None => train_packets out = 0
  end.
Proof.
  intros H AL S. pose proof (train_history _ _ H x) as TH. destruct (lookup (sets s) x) as [a|] eqn:L.
  - destruct (tick_train _ _ _ _ _ _ _ _ H AL S L) as (b & o' & A & L' & ->). destruct (advertise_set_train _ _ _ _ _ A) as [-> _].
    pose proof (train_scheduled _ _ _ H AL a L) as SC. rewrite (t_interval _ _ _ TH) in SC. pose proof (t_on _ _ _ TH) as ON.
    pose proof (ok_latch _ _ _ (sets_ok _ _ _ _ _ H x a L)) as LA.
    destruct (train_since x h) as [t|].
    + rewrite (SC t eq_refl). cbv zeta. destruct (periodic_latch a) eqn:PL; cbn [andb].
      * destruct (N.leb_spec (t + train_sent x h * (train_interval_given x h * 625)) now); repeat split; auto; lia.
      * split; [lia|]. split; [lia|]. intros (a2 & L2 & EN) _. rewrite L in L2. injection L2 as <-. pose proof (t_runs _ _ _ TH EN ON). congruence.
    + destruct (periodic_latch a); [|reflexivity]. specialize (LA eq_refl). congruence.
  - destruct TH as [-> _]. destruct (tick_legacy_no_train _ _ _ _ _ S) as (o3 & A & ->). apply (advertise_sets_no_train _ _ _ _ _ A).
    intros y b I. destruct (periodic_latch b) eqn:EB; [|reflexivity]. exfalso.
    pose proof (in_lookup_nodup _ _ _ (sets_nodup _ _ _ _ _ H) I) as LB.
    pose proof (ok_latch _ _ _ (sets_ok _ _ _ _ _ H y b LB) EB) as ON. pose proof (train_history _ _ H y) as TH. rewrite LB in TH.
    rewrite (t_on _ _ _ TH) in ON. destruct (train_since y h) as [t|] eqn:E; [|discriminate].
    pose proof (lone_is x h AL _ _ E). congruence.
Qed.
End WithController.
