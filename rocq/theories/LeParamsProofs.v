(** Proofs about LE scan and connection parameters. *)
From Verif Require Import Prelude Address Rpa Table LeTypes LeAdvertise LeLists LeScan LeInitiate LeHost LeTac LeFrame LeStep.
From Verif Require Import LeHistory LeListsProofs LeAdvertSpec LeAdvertProofs LeParamsSpec.
Open Scope N_scope.

(** * Parameter arrays *)

Definition b2n (b : bool) : N := if b then 1 else 0.
Lemma popcount_bits phys : popcount phys =
  b2n (N.testbit phys 0) + b2n (N.testbit phys 1) + b2n (N.testbit phys 2) + b2n (N.testbit phys 3)
  + b2n (N.testbit phys 4) + b2n (N.testbit phys 5) + b2n (N.testbit phys 6) + b2n (N.testbit phys 7).
Proof.
  unfold popcount. cbn [fold_left].
  destruct (N.testbit phys 0), (N.testbit phys 1), (N.testbit phys 2), (N.testbit phys 3),
    (N.testbit phys 4), (N.testbit phys 5), (N.testbit phys 6), (N.testbit phys 7); reflexivity.
Qed.

Lemma nth_in_range {A} (l : list A) n : N.of_nat n < lenN l -> exists x, nth_error l n = Some x.
Proof.
  intros H. destruct (nth_error l n) eqn:E; [eauto|]. apply nth_error_None in E. unfold lenN in H. lia.
Qed.

Lemma supplied_0 {A} phys (l : list A) : popcount phys = lenN l -> N.testbit phys 0 = true ->
  exists x, supplied phys 0 l = Some x /\ nth_error l 0 = Some x.
Proof.
  intros P B. unfold supplied. rewrite B. cbn [N.to_nat seq filter length].
  destruct (nth_in_range l 0) as [x E]; [|eauto]. rewrite <- P, popcount_bits, B. cbn [b2n]. lia.
Qed.
Lemma supplied_1 {A} phys (l : list A) : popcount phys = lenN l -> N.testbit phys 1 = true ->
  exists x, supplied phys 1 l = Some x /\ nth_error l (if N.testbit phys 0 then 1 else 0)%nat = Some x.
Proof.
  intros P B. unfold supplied. rewrite B.
  change (seq 0 (N.to_nat 1)) with [0%nat]. cbn [filter]. change (N.of_nat 0) with 0.
  rewrite popcount_bits, B in P. cbn [b2n] in P.
  destruct (N.testbit phys 0); cbn [length b2n] in *; match goal with |- context [nth_error l ?n] => destruct (nth_in_range l n) as [x E]; [lia|eauto] end.
Qed.
Lemma supplied_2 {A} phys (l : list A) : popcount phys = lenN l -> N.testbit phys 2 = true ->
  exists x, supplied phys 2 l = Some x /\
    nth_error l ((if N.testbit phys 0 then 1 else 0) + (if N.testbit phys 1 then 1 else 0))%nat = Some x.
Proof.
  intros P B. unfold supplied. rewrite B.
  change (seq 0 (N.to_nat 2)) with [0%nat; 1%nat]. cbn [filter]. change (N.of_nat 0) with 0. change (N.of_nat 1) with 1.
  rewrite popcount_bits, B in P. cbn [b2n] in P.
  destruct (N.testbit phys 0), (N.testbit phys 1); cbn [length b2n plus Nat.add] in *;
    match goal with |- context [nth_error l ?n] => destruct (nth_in_range l n) as [x E]; [lia|eauto] end.
Qed.
Lemma supplied_no {A} phys i (l : list A) : N.testbit phys i = false -> supplied phys i l = None.
Proof. intros B. unfold supplied. now rewrite B. Qed.

(** The accesses of [scan_phy_at] are in range; the position used for the coded PHY is
    right when the 2M PHY is absent. *)
Lemma scan_offset_in_range phys (l : list scan_phy_param) : popcount phys = lenN l ->
  (N.testbit phys 0 = true -> exists x, nth_error l 0 = Some x) /\
  (N.testbit phys 2 = true -> exists x, nth_error l (if N.testbit phys 0 then 1 else 0)%nat = Some x).
Proof.
  intros P. split; intros B.
  - destruct (supplied_0 phys l P B) as (x & _ & E). eauto.
  - rewrite popcount_bits, B in P. cbn [b2n] in P. apply nth_in_range. destruct (N.testbit phys 0); cbn [b2n] in P; lia.
Qed.
Lemma init_offset_in_range phys (l : list init_phy) : popcount phys = lenN l ->
  (N.testbit phys 0 = true -> exists x, nth_error l 0 = Some x) /\
  (N.testbit phys 1 = true -> exists x, nth_error l (if N.testbit phys 0 then 1 else 0)%nat = Some x) /\
  (N.testbit phys 2 = true -> exists x, nth_error l ((if N.testbit phys 0 then 1 else 0) + (if N.testbit phys 1 then 1 else 0))%nat = Some x).
Proof.
  intros P. repeat split; intros B.
  - destruct (supplied_0 phys l P B) as (x & _ & E). eauto.
  - destruct (supplied_1 phys l P B) as (x & _ & E). eauto.
  - destruct (supplied_2 phys l P B) as (x & _ & E). eauto.
Qed.

Section WithController.
Variable aes : list N -> list N -> list N.
Variable rng : N -> N.
Variable cfg : config.
Notation step := (step aes rng cfg).
Notation history := (history aes rng cfg).

(** * Scanning *)

Definition same_scan_phys (s s' : le) : Prop :=
  scan_1m (scan s') = scan_1m (scan s) /\ scan_coded (scan s') = scan_coded (scan s).

Lemma le_scanning_phys now s s' o : le_scanning now s = (s', o) -> same_scan_phys s s'.
Proof.
  unfold le_scanning. intros H. destruct (negb _) in H; [injection H as <- <-; now split|].
  destruct (_ && _) in H; injection H as <- <-; unfold same_scan_phys, scan_off; le_simpl;
  repeat match goal with |- context [if ?b then _ else _] => destruct b end; le_simpl;
  repeat match goal with |- context [match ?b with DUP_DISABLED => _ | _ => _ end] => destruct b end; le_simpl; auto.
Qed.

Definition sets_scan_phys (o : op) : bool :=
  match o with Command (Reset | SetScanParameters _ _ _ _ _ | SetExtScanParameters _ _ _ _) => true | _ => false end.

Lemma scan_phys_kept now s o s' st out : step now s o = Ok s' st out -> sets_scan_phys o = false -> same_scan_phys s s'.
Proof.
  intros S T. destruct (touches o PScan) eqn:TS.
  2:{ pose proof (step_same _ _ _ _ _ _ _ _ _ S PScan TS) as E. unfold same in E. split; now rewrite E. }
  destruct o as [c|p|]; cbn [LeHost.step] in S.
  - destruct c; try discriminate; unfold_step S; crack S; try discriminate; ok S; unfold same_scan_phys; le_simpl; auto.
  - destruct p; try discriminate; cbn [receive] in S.
    1-2: unfold of_effect, receive_legacy_pdu, receive_extended_pdu in S;
      destruct (then_also _ _) as [s1 o1| |] eqn:E; try discriminate; injection S as <- <- <-;
      apply then_also_inv in E; destruct E as (s2 & o2 & o3 & E1 & E2 & ->); frames; unfold same_scan_phys; le_simpl; auto.
    unfold of_pair in S. destruct (receive_scan_response _ _ _ _ _) as [s1 o1] eqn:E. ok S. frames. unfold same_scan_phys; le_simpl; auto.
  - unfold tick in S. destruct (le_advertising now s) as [[s1 o1]|] eqn:A; [|discriminate].
    destruct (le_scanning now s1) as [s2 o2] eqn:E. ok S. apply le_scanning_phys in E.
    assert (scan s1 = scan s) as SS.
    { unfold le_advertising in A. destruct (legacy_timeout now s) as [a1 p1] eqn:T1. destruct (legacy_advertise now a1) as [a2 p2] eqn:T2.
      destruct (advertise_sets _ _ _) as [[m o3]|]; [|discriminate]. injection A as <- <-. le_simpl.
      transitivity (scan a1).
      - unfold legacy_advertise in T2. destruct (_ && _); [destruct (legacy_pdu_of _)|]; injection T2 as <- <-; reflexivity.
      - unfold legacy_timeout in T1. destruct (l_timeout _); [destruct (_ && _)|]; injection T1 as <- <-; reflexivity. }
    unfold same_scan_phys in *. now rewrite SS in E.
Qed.

(** The two commands *)
Lemma set_scan_parameters_phys now s k i w o pol s' st out :
  step now s (Command (SetScanParameters k i w o pol)) = Ok s' st out ->
  (exists x, st = Some x /\ x <> SUCCESS /\ same_scan_phys s s') \/
  (st = Some SUCCESS /\ 4 <= w /\ w <= i /\ i <= 16384 /\ scan_1m (scan s') = ScanPhy true k i w
   /\ sp_enabled (scan_coded (scan s')) = false /\ extended_used s' = false).
Proof.
  cbn [LeHost.step run_command]. unfold quiet, set_scan_parameters, select_legacy. intros S.
  destruct (extended_used s) eqn:EU; [ok S; left; eexists; repeat split; discriminate|].
  le_simpl_in S. destruct (scan_enabled (scan s)); [ok S; left; eexists; repeat split; discriminate|].
  destruct (_ || _) eqn:B in S; [ok S; left; eexists; repeat split; discriminate|].
  destruct (i <? w) eqn:C in S; [ok S; left; eexists; repeat split; discriminate|].
  ok S. right. le_simpl. clear - B C EU.
  repeat (apply orb_false_iff in B as [B ?]). rewrite N.ltb_ge in *. repeat split; auto.
Qed.

Lemma set_ext_scan_parameters_phys now s o pol phys l s' st out :
  step now s (Command (SetExtScanParameters o pol phys l)) = Ok s' st out ->
  (exists x, st = Some x /\ x <> SUCCESS /\ same_scan_phys s s') \/
  (st = Some SUCCESS /\ Forall (fun p => 4 <= snd p /\ snd p <= snd (fst p)) l
   /\ popcount phys = lenN l /\ extended_used s' = true
   /\ (if N.testbit phys 0 then scan_1m (scan s') = scan_phy_at l 0 else sp_enabled (scan_1m (scan s')) = false)
   /\ (if N.testbit phys 2 then scan_coded (scan s') = scan_phy_at l (if N.testbit phys 0 then 1 else 0)%nat
       else sp_enabled (scan_coded (scan s')) = false)).
Proof.
  cbn [LeHost.step run_command]. unfold quiet, set_ext_scan_parameters, select_extended. intros S.
  destruct (legacy_used s) eqn:EU; [ok S; left; eexists; repeat split; discriminate|].
  le_simpl_in S. destruct (scan_enabled (scan s)); [ok S; left; eexists; repeat split; discriminate|].
  destruct (N.ldiff _ _ =? 0) in S; cbn [negb] in S; [|ok S; left; eexists; repeat split; discriminate].
  destruct (N.eqb_spec (popcount phys) (lenN l)) as [P|] in S; cbn [negb] in S; [|ok S; left; eexists; repeat split; discriminate].
  destruct (phys =? 0) in S; [ok S; left; eexists; repeat split; discriminate|].
  destruct (existsb bad_scan_param l) eqn:B in S; [ok S; left; eexists; repeat split; discriminate|].
  ok S. right. split; [reflexivity|]. split.
  { apply Forall_forall. intros [[k i] w] IN. cbn [fst snd].
    assert (bad_scan_param (k, i, w) = false) as Q.
    { apply not_true_is_false. intros Q. assert (existsb bad_scan_param l = true); [|congruence]. apply existsb_exists. eauto. }
    unfold bad_scan_param in Q. apply orb_false_iff in Q as [Q Q3]. apply orb_false_iff in Q as [Q1 Q2].
    rewrite N.ltb_ge in *. lia. }
  split; [exact P|]. le_simpl. split; [reflexivity|].
  destruct (N.testbit phys 0), (N.testbit phys 2); le_simpl; repeat split.
Qed.

Definition scan_phy_ok (p : scan_phy) : Prop := sp_enabled p = true -> 4 <= sp_window p /\ sp_window p <= sp_interval p.
Definition scan_phy_small (p : scan_phy) : Prop := sp_enabled p = true -> sp_interval p <= 16384.
Definition ScanInv (s : le) : Prop :=
  scan_phy_ok (scan_1m (scan s)) /\ scan_phy_ok (scan_coded (scan s)) /\
  (extended_used s = false -> scan_phy_small (scan_1m (scan s)) /\ scan_phy_small (scan_coded (scan s))).

Lemma scan_phy_at_ok (l : list scan_phy_param) n : Forall (fun p => 4 <= snd p /\ snd p <= snd (fst p)) l -> scan_phy_ok (scan_phy_at l n).
Proof.
  intros F. unfold scan_phy_at. destruct (nth_error l n) as [[[k i] w]|] eqn:E.
  2:{ intros X. discriminate X. }
  intros _. apply nth_error_In in E. rewrite Forall_forall in F. exact (F _ E).
Qed.
Lemma off_ok p : sp_enabled p = false -> scan_phy_ok p /\ scan_phy_small p.
Proof. intros E. split; intros X; congruence. Qed.

Lemma extended_stays now s o s' st out : step now s o = Ok s' st out -> o <> Command Reset ->
  extended_used s' = false -> extended_used s = false.
Proof.
  intros S NR X. destruct o as [c|p|].
  - destruct (flags_step _ _ _ _ _ _ _ _ _ S (fun E => NR (f_equal Command E))) as [_ E]. rewrite X in E.
    destruct (checked c) as [[]|]; try congruence. symmetry in E. now apply orb_false_iff in E as [_ E].
  - assert (T : touches (Receive p) PFlags = false) by (destruct p; reflexivity).
    pose proof (step_same _ _ _ _ _ _ _ _ _ S PFlags T) as [_ E]. congruence.
  - pose proof (step_same _ _ _ _ _ _ _ _ _ S PFlags eq_refl) as [_ E]. congruence.
Qed.

Lemma scan_inv_step now s o s' st out : ScanInv s -> step now s o = Ok s' st out -> ScanInv s'.
Proof.
  intros (I1 & I2 & I3) S. destruct (sets_scan_phys o) eqn:T.
  - assert (SAME : o <> Command Reset -> same_scan_phys s s' -> ScanInv s').
    { intros NR [E1 E2]. unfold ScanInv. rewrite E1, E2. split; [exact I1|]. split; [exact I2|]. intros X.
      apply I3. exact (extended_stays _ _ _ _ _ _ S NR X). }
    destruct o as [c|p|]; try discriminate. destruct c; try discriminate.
    + cbn [LeHost.step run_command] in S. unfold reset, loud in S. ok S. now (split; [|split; [|split]]).
    + destruct (set_scan_parameters_phys _ _ _ _ _ _ _ _ _ _ S) as [(x & _ & _ & E)|(_ & W & I & U & E1 & E2 & _)];
        [apply SAME; [discriminate|exact E]|].
      unfold ScanInv. rewrite E1. destruct (off_ok _ E2) as [O1 O2]. split; [intros _; cbn; auto|]. split; [exact O1|].
      intros _. split; [intros _; exact U|exact O2].
    + destruct (set_ext_scan_parameters_phys _ _ _ _ _ _ _ _ _ S) as [(x & _ & _ & E)|(_ & F & P & X & E1 & E2)];
        [apply SAME; [discriminate|exact E]|].
      unfold ScanInv. split; [|split; [|intros K; congruence]].
      * destruct (N.testbit phys 0); [rewrite E1; now apply scan_phy_at_ok|now apply off_ok].
      * destruct (N.testbit phys 2); [rewrite E2; now apply scan_phy_at_ok|now apply off_ok].
  - destruct (scan_phys_kept _ _ _ _ _ _ S T) as [E1 E2]. unfold ScanInv. rewrite E1, E2. split; [exact I1|]. split; [exact I2|]. intros X.
    apply I3. refine (extended_stays _ _ _ _ _ _ S _ X). intros ->. discriminate T.
Qed.

Lemma scan_inv h s : history h s -> ScanInv s.
Proof.
  apply (history_invariant aes rng cfg ScanInv).
  - intros addr. now (split; [|split; [|split]]).
  - intros now s0 o s' st out. apply scan_inv_step.
Qed.

Lemma scan_params_valid h s p : history h s -> p = scan_1m (scan s) \/ p = scan_coded (scan s) -> sp_enabled p = true ->
  4 <= sp_window p /\ sp_window p <= sp_interval p
  /\ (first_family unchecked h <> Some Extended -> sp_interval p <= 16384).
Proof.
  intros H P E. destruct (scan_inv h s H) as (I1 & I2 & I3). pose proof (flags_history _ _ _ _ _ H) as FL.
  assert (K : first_family unchecked h <> Some Extended -> extended_used s = false).
  { intros NE. unfold flags_are in FL. destruct (first_family unchecked h) as [[]|]; try tauto. }
  destruct P as [-> | ->].
  - destruct (I1 E) as [A B]. split; [exact A|]. split; [exact B|]. intros NE. now apply (proj1 (I3 (K NE))).
  - destruct (I2 E) as [A B]. split; [exact A|]. split; [exact B|]. intros NE. now apply (proj2 (I3 (K NE))).
Qed.

Lemma in_force_at (l : list scan_phy_param) n : scan_in_force (scan_phy_at l n) = nth_error l n.
Proof. unfold scan_phy_at. destruct (nth_error l n) as [[[k i] w]|]; reflexivity. Qed.
Lemma off_in_force p : sp_enabled p = false -> scan_in_force p = None.
Proof. intros E. unfold scan_in_force. now rewrite E. Qed.

Lemma scan_given_skip i now o st out h : sets_scan_phys o = false ->
  scan_given i (Entry now o st out :: h) = scan_given i h.
Proof. intros T. cbn [scan_given what status_of]. destruct o as [c|p|]; try reflexivity. destruct c; try discriminate; destruct st as [[]|]; reflexivity. Qed.
Lemma scan_given_failed i now o x out h : sets_scan_phys o = true -> o <> Command Reset -> x <> SUCCESS ->
  scan_given i (Entry now o (Some x) out :: h) = scan_given i h.
Proof.
  intros T NR NS. cbn [scan_given what status_of]. destruct o as [c|p|]; try reflexivity.
  destruct c; try discriminate; try (now elim NR); destruct x; try reflexivity; now elim NS.
Qed.

Lemma scan_params_given h s : history h s ->
  scan_in_force (scan_1m (scan s)) = scan_given 0 h /\
  (never_2m h -> scan_in_force (scan_coded (scan s)) = scan_given 2 h).
Proof.
  intros H. induction H as [addr|h s now o s' st out H [IH1 IH2] S]; [split; reflexivity|].
  assert (TAIL : never_2m (Entry now o st out :: h) -> never_2m h).
  { intros N2 e a b c d IN. apply N2. now right. }
  destruct (sets_scan_phys o) eqn:T.
  - assert (SAME : forall x, st = Some x -> x <> SUCCESS -> o <> Command Reset -> same_scan_phys s s' ->
      scan_in_force (scan_1m (scan s')) = scan_given 0 (Entry now o st out :: h) /\
      (never_2m (Entry now o st out :: h) -> scan_in_force (scan_coded (scan s')) = scan_given 2 (Entry now o st out :: h))).
    { intros x -> NS NR [E1 E2]. rewrite E1, E2, !scan_given_failed by assumption. auto. }
    destruct o as [c|p|]; try discriminate. destruct c; try discriminate.
    + cbn [LeHost.step run_command] in S. unfold reset, loud in S. ok S. split; reflexivity.
    + destruct (set_scan_parameters_phys _ _ _ _ _ _ _ _ _ _ S) as [(x & X & NS & E)|(-> & W & I & U & E1 & E2 & _)];
        [apply (SAME x X NS); [discriminate|exact E]|].
      cbn [scan_given what status_of]. rewrite E1. split; [reflexivity|]. intros _. now apply off_in_force.
    + destruct (set_ext_scan_parameters_phys _ _ _ _ _ _ _ _ _ S) as [(x & X & NS & E)|(-> & F & P & X & E1 & E2)];
        [apply (SAME x X NS); [discriminate|exact E]|].
      cbn [scan_given what status_of]. split.
      * destruct (N.testbit phys 0) eqn:B0; [|rewrite (supplied_no _ _ _ B0); now apply off_in_force].
        destruct (supplied_0 phys l P B0) as (x & -> & EX). now rewrite E1, in_force_at.
      * intros N2. assert (B1 : N.testbit phys 1 = false) by (apply (N2 _ o pol phys l (or_introl eq_refl)); reflexivity).
        destruct (N.testbit phys 2) eqn:B2; [|rewrite (supplied_no _ _ _ B2); now apply off_in_force].
        destruct (supplied_2 phys l P B2) as (x & -> & EX). rewrite B1 in EX. rewrite Nat.add_0_r in EX. now rewrite E2, in_force_at.
  - destruct (scan_phys_kept _ _ _ _ _ _ S T) as [E1 E2]. rewrite E1, E2, !scan_given_skip by exact T. auto.
Qed.

End WithController.
