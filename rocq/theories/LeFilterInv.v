(** The filter policies of the LE controller: the devices scan requests were sent to,
    the initiator and the advertiser. Proofs. *)
From Verif Require Import Prelude Address Rpa Table LeTypes LeAdvertise LeLists LeScan LeInitiate LeHost LeTac LeFrame LeStep LeSets LeOutputs LeHistory.
From Verif Require Import LeListsSpec LeListsProofs LeParamsProofs LeAdvertSpec LeAdvertProofs LeFilterSpec LeFilter LeFilterMore.
Open Scope N_scope.

Section WithController.
Variable aes : list N -> list N -> list N.
Variable rng : N -> N.
Variable cfg : config.
Notation step := (step aes rng cfg).
Notation history := (history aes rng cfg).
Notation who := (who aes).
Notation pending_ok := (pending_ok aes).

(** While the scanner is on, identities do not change *)
Lemma who_kept now s o s' st out : step now s o = Ok s' st out -> scan_enabled (scan s) = true -> o <> Command Reset ->
  resolving_on s' = resolving_on s /\ forall a, who (resolving_on s') (resolving s') a = who (resolving_on s) (resolving s) a.
Proof.
  intros S EN NR.
  assert (ON : resolving_on s' = resolving_on s).
  { destruct (touches o PResolvingOn) eqn:T; [|exact (step_same _ _ _ _ _ _ _ _ _ S PResolvingOn T)].
    destruct o as [c|p|]; [|destruct p; discriminate|discriminate]. destruct c; try discriminate; [now elim NR|].
    cbn [LeHost.step run_command] in S. unfold set_address_resolution, quiet, resolving_list_busy in S. rewrite EN, !orb_true_r in S. cbn [orb] in S.
    ok S. reflexivity. }
  split; [exact ON|]. intros a. rewrite ON. destruct (resolving_on s) eqn:R; [|apply who_off].
  apply who_ident. destruct (resolving_kept_active _ _ _ _ _ _ _ _ _ R (or_intror (or_intror (or_introl EN))) NR S) as [E _].
  now rewrite <- !stored_ident.
Qed.

Lemma passes_kept now s o s' st out i : step now s o = Ok s' st out -> o <> Command Reset -> passes s i ->
  scan_filter (scan s') = scan_filter (scan s) -> scan_enabled (scan s') = true -> passes s' i.
Proof.
  intros S NR [EN P] F EN'. split; [exact EN'|]. rewrite F. intros L. specialize (P L).
  unfold on_accept_list, listed in *. 
  rewrite (accept_kept_in_use _ _ _ _ _ _ _ _ _ (or_intror (or_intror (or_introl (conj EN L)))) NR S). exact P.
Qed.

(** Pending scan requests only grow with devices which pass, or are forgotten *)
Lemma pending_step now s o s' st out : step now s o = Ok s' st out -> o <> Command Reset ->
  scan_enabled (scan s') = true -> scan_pending (scan s') = [] \/
  (scan_enabled (scan s) = true /\ scan_filter (scan s') = scan_filter (scan s) /\
   forall p, In p (scan_pending (scan s')) ->
     In p (scan_pending (scan s)) \/ passes s (who (resolving_on s) (resolving s) (fst p))).
Proof.
  intros S NR EN. destruct (touches o PScan) eqn:TS.
  2:{ pose proof (step_same _ _ _ _ _ _ _ _ _ S PScan TS) as E. unfold same in E. rewrite E in *. right. auto. }
  destruct o as [c|p|].
  - cbn [LeHost.step] in S. destruct c; try discriminate; [now elim NR| | | |].
    + cbn [run_command] in S. unfold quiet, set_scan_parameters, select_legacy in S.
      destruct (extended_used s) in S; [ok S; right; auto|].
      le_simpl_in S. destruct (scan_enabled (scan s)) eqn:ES; [ok S; right; le_simpl; auto|].
      exfalso. do 2 (destruct (_ : bool) in S at 1; [ok S; le_simpl_in EN; congruence|]). ok S. le_simpl_in EN. congruence.
    + cbn [run_command] in S. unfold quiet, set_scan_enable, select_legacy in S.
      destruct (extended_used s) in S; [ok S; right; auto|].
      destruct (negb on) in S; [ok S; left; reflexivity|]. cbv zeta in S.
      destruct (_ && _) in S at 1; [ok S; right; le_simpl; auto|]. ok S. left. reflexivity.
    + cbn [run_command] in S. unfold quiet, set_ext_scan_parameters, select_extended in S.
      destruct (legacy_used s) in S; [ok S; right; auto|].
      le_simpl_in S. destruct (scan_enabled (scan s)) eqn:ES; [ok S; right; le_simpl; auto|].
      exfalso. do 4 (destruct (_ : bool) in S at 1; [ok S; le_simpl_in EN; congruence|]). ok S. le_simpl_in EN.
      destruct (N.testbit phys 0), (N.testbit phys 2); le_simpl_in EN; congruence.
    + cbn [run_command] in S. unfold quiet, set_ext_scan_enable, select_extended in S.
      destruct (legacy_used s) in S; [ok S; right; auto|].
      destruct (negb on) in S; [ok S; left; reflexivity|]. cbv zeta in S.
      do 3 (destruct (_ && _) in S at 1; [ok S; right; le_simpl; auto|]). ok S. left. unfold scan_on. le_simpl.
      clear. repeat match goal with |- context [if ?b then _ else _] => destruct b end; le_simpl; reflexivity.
  - destruct p; try discriminate; pose proof (scan_policy_kept _ _ _ _ _ _ _ _ _ S eq_refl) as F; cbn [LeHost.step receive] in S.
    + unfold of_effect, receive_legacy_pdu in S. destruct (then_also _ _) as [s1 o1| |] eqn:E; try discriminate. ok S.
      apply then_also_inv in E as (s2 & o2 & o3 & E1 & E2 & ->). right.
      destruct (scan_legacy_says _ _ _ _ _ _ _ _ _ _ E1) as [_ G]. frames. le_simpl_in EN. le_simpl_in F. le_simpl_in G. le_simpl.
      repeat split; auto. intros p I. destruct (G _ I) as [X|[X Y]]; [auto|]. right. rewrite X. exact Y.
    + unfold of_effect, receive_extended_pdu in S. destruct (then_also _ _) as [s1 o1| |] eqn:E; try discriminate. ok S.
      apply then_also_inv in E as (s2 & o2 & o3 & E1 & E2 & ->). right.
      destruct (scan_extended_says _ _ _ _ _ _ _ _ _ _ _ _ _ _ _ _ _ _ E1) as [_ G]. frames. le_simpl_in EN. le_simpl_in F. le_simpl_in G. le_simpl.
      repeat split; auto. intros p I. destruct (G _ I) as [X|[X Y]]; [auto|]. right. rewrite X. exact Y.
    + unfold of_pair in S. destruct (receive_scan_response _ _ _ _ _) as [s1 o1] eqn:E. ok S. right.
      destruct (scan_response_says _ _ _ _ _ _ _ E) as [G _]. frames. le_simpl_in EN. le_simpl_in F. le_simpl_in G. le_simpl. repeat split; auto.
  - pose proof (scan_policy_kept _ _ _ _ _ _ _ _ _ S eq_refl) as F. cbn [LeHost.step] in S. unfold tick in S.
    destruct (le_advertising now s) as [[s1 o1]|] eqn:A; [|discriminate].
    destruct (le_scanning now s1) as [s2 o2] eqn:E. ok S. apply (le_scanning_filter rng) in E as (_ & E1 & E2 & _).
    apply advertising_scan in A. rewrite A in *. right. auto.
Qed.

Lemma pending_kept h s : history h s -> pending_ok s.
Proof.
  revert h s. apply history_invariant; [intros addr E; discriminate E|].
  intros now s o s' st out IH S EN p I.
  assert (NR : o <> Command Reset).
  { intros ->. cbn [LeHost.step run_command] in S. unfold reset, loud in S. ok S. discriminate EN. }
  destruct (pending_step _ _ _ _ _ _ S NR EN) as [E|(E1 & E2 & E3)]; [rewrite E in I; destruct I|].
  destruct (who_kept _ _ _ _ _ _ S E1 NR) as [_ W]. rewrite W.
  apply (passes_kept _ _ _ _ _ _ _ S NR); auto. destruct (E3 _ I) as [X|X]; [exact (IH E1 _ X)|exact X].
Qed.

Theorem reports_filtered h s now o s' st out e i : history h s -> step now s o = Ok s' st out -> In (Notified e) out -> reported e = Some i ->
  exists p adv, o = Receive p /\ advertiser_of p = Some adv /\ known_as aes s adv i /\ scan_enabled (scan s) = true
    /\ (listed_only (scan_policy_given h) -> on_accept_list s i).
Proof.
  intros H S I R. destruct (report_origin _ _ _ _ _ _ _ _ _ _ _ S I R) as (p & adv & -> & A & -> & P).
  exists p, adv. split; [reflexivity|]. split; [exact A|]. split; [apply who_known|].
  assert (Q : passes s (who (resolving_on s) (resolving s) adv)).
  { destruct P as [P|(EN & r & P)]; [exact P|]. exact (pending_kept _ _ H EN _ P). }
  destruct Q as [Q1 Q2]. split; [exact Q1|]. now rewrite <- (scan_policy_history _ _ _ _ _ H).
Qed.


Lemma connect_to_no_scan adv tgt d s s' o : connect_to aes rng adv tgt d s = Some (s', o) -> forall a b, ~ In (Sent (AirScan a b)) o.
Proof.
  unfold connect_to. intros H a b I.
  destruct (resolve aes adv s) as [s1 r]. do 3 (destruct (_ : bool) in H at 1; [injection H as <- <-; destruct I|]).
  destruct (generate _ _ _ _ _) as [s2 r2]. destruct (initiating_address _ _); [|discriminate].
  injection H as <- <-. destruct I as [I|[]]. discriminate I.
Qed.

Theorem scan_requests_filtered h s now o s' st out a b : history h s -> step now s o = Ok s' st out -> In (Sent (AirScan a b)) out ->
  exists p i, o = Receive p /\ advertiser_of p = Some b /\ known_as aes s b i /\ scan_enabled (scan s) = true
    /\ (listed_only (scan_policy_given h) -> on_accept_list s i).
Proof.
  intros H S I. rewrite <- (scan_policy_history _ _ _ _ _ H).
  pose proof (step_fine _ _ _ _ _ _ _ _ _ S) as F. rewrite Forall_forall in F. apply F in I as M. cbn [fine] in M. clear F.
  destruct o as [[]|p|]; try discriminate M. destruct p; try discriminate M; cbn [LeHost.step receive] in S;
    unfold of_effect, receive_legacy_pdu, receive_extended_pdu in S;
    destruct (then_also _ _) as [s1 o1| |] eqn:E in S; try discriminate S; ok S;
    apply then_also_inv in E; destruct E as (s2 & o2 & o3 & E1 & E2 & ->); apply in_app_iff in I as [I|I].
  - destruct (scan_legacy_says _ _ _ _ _ _ _ _ _ _ E1) as [F _]. rewrite Forall_forall in F. apply F in I as [[P Q] R]. cbn [scan_says] in R. subst b.
    eexists _, _. split; [reflexivity|]. split; [reflexivity|]. split; [apply who_known|]. auto.
  - exfalso. unfold connect_legacy_pdu in E2. do 2 (destruct (_ : bool) in E2 at 1; [injection E2 as <- <-; destruct I|]). exact (connect_to_no_scan _ _ _ _ _ _ E2 _ _ I).
  - destruct (scan_extended_says _ _ _ _ _ _ _ _ _ _ _ _ _ _ _ _ _ _ E1) as [F _]. rewrite Forall_forall in F. apply F in I as [[P Q] R]. cbn [scan_says] in R. subst b.
    eexists _, _. split; [reflexivity|]. split; [reflexivity|]. split; [apply who_known|]. auto.
  - exfalso. unfold connect_extended_pdu in E2. do 3 (destruct (_ : bool) in E2 at 1; [injection E2 as <- <-; destruct I|]). exact (connect_to_no_scan _ _ _ _ _ _ E2 _ _ I).
Qed.

(** Conversely, an undirected packet of a device which passes is reported *)
Theorem allowed_reported h s now adv tgt t data s' st out : history h s -> step now s (Receive (AirLegacy adv tgt t data)) = Ok s' st out ->
  first_family unchecked h = Some Legacy -> scan_enabled (scan s) = true -> scan_dups (scan s) = DUP_DISABLED -> t <> PDU_DIRECT ->
  (listed_only (scan_policy_given h) -> forall i, known_as aes s adv i -> on_accept_list s i) ->
  (forall i c, unmasked s (EvReport i c data)) ->
  exists i c, known_as aes s adv i /\ In (Notified (EvReport i c data)) out.
Proof.
  intros H S FAM EN DU ND A UN. rewrite <- (scan_policy_history _ _ _ _ _ H) in A.
  pose proof (flags_history _ _ _ _ _ H) as FL. rewrite FAM in FL. destruct FL as [LU EU].
  cbn [LeHost.step receive] in S. unfold of_effect, receive_legacy_pdu in S.
  destruct (then_also _ _) as [s1 o1| |] eqn:E in S; try discriminate S; ok S.
  apply then_also_inv in E; destruct E as (s2 & o2 & o3 & E1 & E2 & ->).
  exists (who (resolving_on s) (resolving s) adv), (report_code t). split; [apply who_known|]. apply in_app_iff. left.
  unfold scan_legacy_pdu in E1. rewrite EN in E1. cbn [negb] in E1.
  destruct (resolve aes adv s) as [s3 r] eqn:R. pose proof (resolve_who _ _ _ _ _ R) as W. apply resolve_frame in R as (l & -> & _). rewrite <- W.
  assert (X : scan_filter_ok (with_resolving l s) r = true).
  { apply (passes_filter (with_resolving l s)). intros L. apply (A L). rewrite W. apply who_known. }
  rewrite X in E1. cbn [negb] in E1.
  assert (Y : match t with PDU_DIRECT => true | _ => false end = false) by (destruct t; try reflexivity; now elim ND). rewrite Y in E1.
  unfold filter_duplicate in E1. le_simpl_in E1. rewrite DU in E1. cbv iota beta zeta in E1. le_simpl_in E1. rewrite LU in E1.
  specialize (UN r (report_code t)). unfold unmasked in UN. cbn [subevent] in UN.
  change (le_event_unmasked (with_resolving l s) 2) with (le_event_unmasked s 2) in E1. rewrite UN in E1.
  destruct (send_scan_request _ _ _ _ _ _ _ _ _ _ _ _) as [[s4 o4]|]; [|discriminate]. injection E1 as <- <-.
  cbn [andb negb app]. left. reflexivity.
Qed.
End WithController.
