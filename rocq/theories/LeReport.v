(** Packets that have to be reported are reported: proofs. *)
From Verif Require Import Prelude Address Rpa Table LeTypes LeAdvertise LeLists LeScan LeInitiate LeHost LeTac LeFrame LeStep LeSets LeOutputs LeHistory.
From Verif Require Import LeListsSpec LeListsProofs LeAdvertSpec LeAdvertProofs LeAdvertSends LeFilterSpec LeFilter LeFilterMore LeFilterInv LeFilterInit LeTimeSpec LeTimeScan LeReportSpec.
Open Scope N_scope.

Section WithController.
Variable aes : list N -> list N -> list N.
Variable rng : N -> N.
Variable cfg : config.
Notation step := (step aes rng cfg).
Notation history := (history aes rng cfg).
Notation who := (who aes).

Lemma addressed_validate s tgt i : by_address s tgt \/ by_key aes s tgt i -> validate_target aes s tgt i = true.
Proof.
  unfold validate_target, is_local_address. intros [[-> | ->]|(O & e & I & K & M)]; cbn [awt_type awt_addr]; [now rewrite list_eqb_refl..|].
  destruct (match awt_type tgt with PUBLIC_DEVICE => _ | _ => _ end); [reflexivity|].
  assert (R : is_rpa tgt = true) by (unfold matches_irk in M; destruct (is_rpa tgt); [reflexivity|discriminate M]). rewrite R.
  unfold resolve_target, resolve_target_a. rewrite O. cbn [andb]. apply existsb_exists. exists e. split; [exact I|].
  rewrite M, andb_true_r. now apply awt_eqb_eq.
Qed.
Lemma key_resolves s tgt i : by_key aes s tgt i <-> resolve_target aes s tgt i = true.
Proof.
  unfold resolve_target, resolve_target_a, by_key. rewrite andb_true_iff, existsb_exists. split.
  - intros (O & e & I & K & M). split; [exact O|]. exists e. split; [exact I|]. rewrite M, andb_true_r. now apply awt_eqb_eq.
  - intros (O & e & I & K). apply andb_true_iff in K as [K M]. apply awt_eqb_eq in K. split; [exact O|]. eauto.
Qed.
Lemma resolve_ident s l tgt i : map ident l = map ident (resolving s) -> resolve_target aes (with_resolving l s) tgt i = resolve_target aes s tgt i.
Proof.
  intros E. unfold resolve_target, resolve_target_a. le_simpl. erewrite (existsb_ident _ (resolving s)); [reflexivity| |exact E].
  intros e e' X. unfold ident in X. injection X as X1 X2 X3 X4. now rewrite X1, X2, X4.
Qed.
Lemma directed_for_us s l d tgt r : map ident l = map ident (resolving s) -> for_us aes s (scan_filter (scan s)) d tgt r ->
  exists only, (if d then directed_ok aes (with_resolving l s) tgt r else Some false) = Some only
  /\ (only = true -> d = true /\ looks_at_identity (scan_filter (scan s)) /\ is_rpa tgt = true /\ ~ by_key aes s tgt r).
Proof.
  intros ID F. destruct d; [|exists false; split; [reflexivity|discriminate]]. specialize (F eq_refl).
  unfold directed_ok. le_simpl. rewrite (validate_ident aes s l tgt r ID), (resolve_ident s l tgt r ID).
  assert (LO : is_local_address (with_resolving l s) tgt = true \/ is_rpa tgt = true).
  { destruct F as [[-> | ->]|[(O & e & I & K & M)|[_ F]]]; [left..| |auto].
    - unfold is_local_address. le_simpl. cbn [awt_type awt_addr]. apply list_eqb_refl.
    - unfold is_local_address. le_simpl. cbn [awt_type awt_addr]. apply list_eqb_refl.
    - right. unfold matches_irk in M. destruct (is_rpa tgt); [reflexivity|discriminate M]. }
  assert (N : negb (is_local_address (with_resolving l s) tgt) && negb (is_rpa tgt) = false) by (destruct LO as [-> | ->]; [reflexivity|apply andb_false_r]).
  assert (ID' : forall p, looks_at_identity p -> p = scan_filter (scan s) ->
    exists only, (if negb (is_local_address (with_resolving l s) tgt) && negb (is_rpa tgt) then None else Some (is_rpa tgt && negb (resolve_target aes s tgt r))) = Some only
    /\ (only = true -> true = true /\ looks_at_identity p /\ is_rpa tgt = true /\ ~ by_key aes s tgt r)).
  { intros p L _. rewrite N. eexists. split; [reflexivity|]. intros X. apply andb_true_iff in X as [X Y]. split; [reflexivity|]. split; [exact L|]. split; [exact X|].
    rewrite key_resolves. intros Z. rewrite Z in Y. discriminate Y. }
  destruct (scan_filter (scan s)) eqn:P.
  - rewrite addressed_validate; [exists false; split; [reflexivity|discriminate]|]. destruct F as [F|[F|[[F|F] _]]]; auto; discriminate F.
  - rewrite addressed_validate; [exists false; split; [reflexivity|discriminate]|]. destruct F as [F|[F|[[F|F] _]]]; auto; discriminate F.
  - apply ID'; [now left|reflexivity].
  - apply ID'; [now right|reflexivity].
Qed.
Lemma new_fresh h s0 s p s' b : history h s0 -> scan s = scan s0 -> is_new s0 h p -> filter_duplicate p s = (s', b) -> b = true.
Proof.
  intros H E NW F. apply filter_duplicate_says in F as (k & _ & F). destruct F as [(_ & _ & F)|(F & _)]; [|exact F].
  destruct b; [reflexivity|]. destruct (F eq_refl) as [I D]. rewrite E in *. destruct NW as [NW|NW]; [contradiction|].
  elim NW. exact (received_seen _ _ _ _ _ _ H I).
Qed.
Lemma fresh_same p s s' b c : filter_duplicate p s = (s', b) ->
  le_event_unmasked s' c = le_event_unmasked s c /\ legacy_used s' = legacy_used s /\ extended_used s' = extended_used s.
Proof. intros F. apply filter_duplicate_says in F as (k & -> & _). repeat split. Qed.

Theorem legacy_reported h s now adv tgt t data s' st out : history h s -> step now s (Receive (AirLegacy adv tgt t data)) = Ok s' st out ->
  scan_enabled (scan s) = true -> (forall i, known_as aes s adv i -> for_us aes s (scan_policy_given h) (match t with PDU_DIRECT => true | _ => false end) tgt i) ->
  is_new s h (AirLegacy adv tgt t data) ->
  (listed_only (scan_policy_given h) -> forall i, known_as aes s adv i -> on_accept_list s i) ->
  exists i, known_as aes s adv i
  /\ (let e := EvReport i (match t with PDU_IND => 0 | PDU_DIRECT => 1 | PDU_SCAN => 2 | PDU_NONCONN => 3 end) data in
      first_family unchecked h = Some Legacy -> unmasked s e -> unmasked s (EvDirectedReport i (awt_addr tgt)) ->
      In (Notified e) out
      \/ (t = PDU_DIRECT /\ looks_at_identity (scan_policy_given h) /\ is_rpa tgt = true /\ ~ by_key aes s tgt i
          /\ In (Notified (EvDirectedReport i (awt_addr tgt))) out))
  /\ (let e := EvExtendedReport (match t with PDU_IND | PDU_DIRECT => true | _ => false end) (match t with PDU_IND | PDU_SCAN => true | _ => false end)
                 (match t with PDU_DIRECT => true | _ => false end) false true false i 255 data in
      first_family unchecked h = Some Extended -> unmasked s e -> In (Notified e) out).
Proof.
  intros H S EN FU NW A. rewrite <- (scan_policy_history _ _ _ _ _ H) in *.
  pose proof (flags_history _ _ _ _ _ H) as FL.
  cbn [LeHost.step receive] in S. unfold of_effect, receive_legacy_pdu in S.
  destruct (then_also _ _) as [s1 o1| |] eqn:E in S; try discriminate S; ok S.
  apply then_also_inv in E; destruct E as (s2 & o2 & o3 & E1 & E2 & ->). clear E2.
  exists (who (resolving_on s) (resolving s) adv). split; [apply who_known|].
  unfold scan_legacy_pdu in E1. rewrite EN in E1. cbn [negb] in E1. cbv zeta in E1.
  destruct (resolve aes adv s) as [s3 r] eqn:R. pose proof (resolve_who _ _ _ _ _ R) as W. apply resolve_frame in R as (l & -> & ID). rewrite <- W.
  assert (X : scan_filter_ok (with_resolving l s) r = true).
  { apply (passes_filter (with_resolving l s)). intros L. apply (A L). rewrite W. apply who_known. }
  rewrite X in E1. cbn [negb] in E1. specialize (FU r). rewrite W in FU at 1. specialize (FU (who_known _ _ _)).
  destruct (directed_for_us s l _ tgt r ID FU) as (only & DO & ON). rewrite DO in E1.
  destruct (filter_duplicate _ _) as [s4 fresh] eqn:F in E1.
  assert (fresh = true) as -> by exact (new_fresh h s (with_resolving l s) _ _ _ H eq_refl NW F).
  destruct (fresh_same _ _ _ _ 2 F) as (M2 & LU & EU). destruct (fresh_same _ _ _ _ 13 F) as (M13 & _ & _). destruct (fresh_same _ _ _ _ 11 F) as (M11 & _ & _).
  destruct (send_scan_request _ _ _ _ _ _ _ _ _ _ _ _) as [[s5 o4]|]; [|discriminate]. injection E1 as <- <-.
  rewrite M2, M11, M13, LU, EU. clear M2 M11 M13 LU EU F. le_simpl.
  change (le_event_unmasked (with_resolving l s)) with (le_event_unmasked s).
  split; intros FAM UN; rewrite FAM in FL; cbn [flags_are] in FL; destruct FL as [L1 L2]; rewrite L1, ?L2; unfold unmasked in *; cbn [subevent] in *; rewrite UN.
  - intros UD. rewrite UD. destruct only; cbn [andb negb app]; [|left; left; reflexivity]. right.
    destruct (ON eq_refl) as (DI & LI & RP & NK). split; [destruct t; try discriminate DI; reflexivity|]. do 3 (split; [assumption|]). left. reflexivity.
  - cbn [andb negb app]. left. reflexivity.
Qed.

Theorem extended_reported h s now adv tgt c sc d sid power prim sec pi data s' st out : history h s ->
  step now s (Receive (AirExtended adv tgt c sc d sid power prim sec pi data)) = Ok s' st out ->
  first_family unchecked h = Some Extended -> scan_enabled (scan s) = true -> on_scanned_phys cfg s prim sec -> (forall i, known_as aes s adv i -> for_us aes s (scan_policy_given h) d tgt i) ->
  is_new s h (AirExtended adv tgt c sc d sid power prim sec pi data) ->
  (listed_only (scan_policy_given h) -> forall i, known_as aes s adv i -> on_accept_list s i) ->
  (forall m i b, unmasked s (EvExtendedReport c sc d false false m i sid b)) ->
  exists i pieces rest, known_as aes s adv i /\ whole 229 data pieces
  /\ out = map (fun f => Notified (EvExtendedReport c sc d false false (fst f) i sid (snd f))) pieces ++ rest
  /\ forall e, In (Notified e) rest -> reported e = None.
Proof.
  intros H S FAM EN PH FU NW A UN. rewrite <- (scan_policy_history _ _ _ _ _ H) in *.
  pose proof (flags_history _ _ _ _ _ H) as FL. rewrite FAM in FL. destruct FL as [LU EU].
  cbn [LeHost.step receive] in S. unfold of_effect, receive_extended_pdu in S.
  destruct (then_also _ _) as [s1 o1| |] eqn:E in S; try discriminate S; ok S.
  apply then_also_inv in E; destruct E as (s2 & o2 & o3 & E1 & E2 & ->).
  pose proof (connect_extended_quiet _ _ _ _ _ _ _ _ _ E2) as Q. clear E2.
  unfold scan_extended_pdu in E1. rewrite EN, EU in E1. cbn [negb] in E1.
  destruct PH as (P1 & P2 & P3 & P4).
  assert (B1 : ((prim =? 1) && negb (sp_enabled (scan_1m (scan s)))) || ((prim =? 3) && negb (sp_enabled (scan_coded (scan s)))) = false).
  { destruct (N.eqb_spec prim 1) as [X|X]; [rewrite (P1 X); subst; reflexivity|]. destruct (N.eqb_spec prim 3) as [Y|Y]; [rewrite (P2 Y)|]; reflexivity. }
  rewrite B1 in E1.
  assert (B2 : secondary_supported cfg sec = true).
  { unfold secondary_supported. destruct (N.eqb_spec sec 2) as [X|X]; [rewrite (P3 X); subst; reflexivity|].
    destruct (N.eqb_spec sec 3) as [Y|Y]; [rewrite (P4 (or_introl Y)); reflexivity|].
    destruct (N.eqb_spec sec 4) as [Z|Z]; [rewrite (P4 (or_intror Z)); reflexivity|]. reflexivity. }
  rewrite B2 in E1. cbn [negb] in E1. cbv zeta in E1.
  destruct (resolve aes adv s) as [s3 r] eqn:R. pose proof (resolve_who _ _ _ _ _ R) as W. apply resolve_frame in R as (l & -> & ID).
  assert (X : scan_filter_ok (with_resolving l s) r = true).
  { apply (passes_filter (with_resolving l s)). intros L. apply (A L). rewrite W. apply who_known. }
  rewrite X in E1. cbn [negb] in E1. specialize (FU r). rewrite W in FU at 1. specialize (FU (who_known _ _ _)).
  destruct (directed_for_us s l _ tgt r ID FU) as (only & DO & ON). rewrite DO in E1.
  destruct (filter_duplicate _ _) as [s4 fresh] eqn:F in E1.
  assert (fresh = true) as -> by exact (new_fresh h s (with_resolving l s) _ _ _ H eq_refl NW F).
  destruct (fresh_same _ _ _ _ 13 F) as (M13 & _ & _). rewrite M13 in E1.
  change (le_event_unmasked (with_resolving l s) 13) with (le_event_unmasked s 13) in E1.
  specialize (UN true r []). unfold unmasked in UN. cbn [subevent] in UN. rewrite UN in E1. cbn [andb] in E1.
  destruct (send_scan_request _ _ _ _ _ _ _ _ _ _ _ _) as [[s5 o4]|] eqn:SR; [|discriminate]. injection E1 as <- <-.
  pose proof (send_scan_silent _ _ _ _ _ _ _ _ _ _ _ _ _ _ SR) as Q2.
  exists r, (fragments (length data) 229 data), (o4 ++ o3). split; [rewrite W; apply who_known|]. split; [apply (fragments_whole aes rng); reflexivity|].
  split; [now rewrite <- app_assoc|]. intros e I. apply in_app_iff in I as [I|I]; [elim (Q2 e I)|elim (Q e I)].
Qed.

Lemma pending_found a (r : scan_request) l : In (a, r) l -> exists r', pending_find a l = Some r'.
Proof.
  unfold pending_find. intros I. destruct (find _ l) as [[b r']|] eqn:F; [eauto|].
  apply (find_none _ _ F) in I. cbn [fst] in I. exfalso. unfold awt_eqb in I. rewrite list_eqb_refl in I. destruct a as [b t]. destruct t; discriminate I.
Qed.
(** The answer to a scan request of this controller that is still open. *)
Theorem response_reported h s now adv dst data req s' st out : history h s -> step now s (Receive (AirScanResponse adv dst data)) = Ok s' st out ->
  scan_enabled (scan s) = true -> In (adv, req) (scan_pending (scan s)) -> is_new s h (AirScanResponse adv dst data) ->
  exists i, known_as aes s adv i
  /\ (first_family unchecked h = Some Legacy -> unmasked s (EvReport i 4 data) -> out = [Notified (EvReport i 4 data)])
  /\ (first_family unchecked h = Some Extended -> (forall c l m b, unmasked s (EvExtendedReport c true false true l m i 255 b)) ->
      exists c legacy pieces, whole 229 data pieces
      /\ out = map (fun f => Notified (EvExtendedReport c true false true legacy (fst f) i 255 (snd f))) pieces).
Proof.
  intros H S EN PE NW. pose proof (flags_history _ _ _ _ _ H) as FL.
  cbn [LeHost.step receive] in S. unfold of_pair in S. destruct (receive_scan_response _ _ _ _ _) as [s1 o1] eqn:E. ok S.
  unfold receive_scan_response in E. rewrite EN in E. cbn [negb] in E. destruct (pending_found _ _ _ PE) as [r' PF]. rewrite PF in E.
  destruct (resolve aes adv s) as [s3 r] eqn:R. pose proof (resolve_who _ _ _ _ _ R) as W. apply resolve_frame in R as (l & -> & _). cbv zeta in E.
  destruct (filter_duplicate _ _) as [s4 fresh] eqn:F in E.
  assert (fresh = true) as ->.
  { pose proof F as F'. apply filter_duplicate_says in F as (k & _ & F). le_simpl_in F. destruct F as [(_ & _ & F)|(F & _)]; [|exact F].
    destruct fresh; [reflexivity|]. destruct (F eq_refl) as [I D]. destruct NW as [NW|NW]; [contradiction|]. elim NW. exact (received_seen _ _ _ _ _ _ H I). }
  destruct (fresh_same _ _ _ _ 2 F) as (M2 & LU & EU). destruct (fresh_same _ _ _ _ 13 F) as (M13 & _ & _).
  injection E as <- <-. rewrite M2, M13, LU, EU. clear M2 M13 LU EU F. le_simpl.
  match goal with |- context [le_event_unmasked ?x 2] => change (le_event_unmasked x) with (le_event_unmasked s) end.
  exists r. split; [rewrite W; apply who_known|].
  split; intros FAM UN; rewrite FAM in FL; cbn [flags_are] in FL; destruct FL as [L1 L2]; rewrite L1, L2.
  - unfold unmasked in UN. cbn [subevent] in UN. rewrite UN. reflexivity.
  - specialize (UN true true true []). unfold unmasked in UN. cbn [subevent] in UN. rewrite UN. cbn [andb app].
    eexists _, _, (fragments (length data) 229 data). split; [apply (fragments_whole aes rng); reflexivity|]. reflexivity.
Qed.

(** A directed packet for this controller leads to a connection request, like an undirected one. *)
Lemma addressed_touched s l tgt i : map ident l = map ident (resolving s) -> addressed_here aes s tgt i ->
  tgt = AWT (public_address s) PUBLIC_DEVICE \/ tgt = AWT (random_address s) RANDOM_DEVICE
  \/ (resolving_on s = true /\ exists e, In e l
      /\ i = peer_device_address (peer_identity_address e) (peer_identity_type e) /\ matches_irk aes tgt (local_irk e) = true).
Proof.
  intros ID [A|[A|A]]; auto. right. right. assert (K : by_key aes (with_resolving l s) tgt i).
  { apply key_resolves. rewrite (resolve_ident s l tgt i ID). now apply key_resolves. }
  exact K.
Qed.
Lemma connect_to_sends_directed adv target d s s' out : connect_to aes rng adv target d s = Some (s', out) ->
  (d = true -> addressed_here aes s target (who (resolving_on s) (resolving s) adv) /\ (is_rpa target = true \/ init_own (init s) = OWN_PUBLIC \/ init_own (init s) = OWN_RANDOM)) ->
  may_connect_to s (init_filter (init s), init_peer (init s)) (who (resolving_on s) (resolving s) adv) ->
  exists a x y z, In (Sent (AirConnect a adv x y z)) out.
Proof.
  unfold connect_to. intros H LT MC. destruct (resolve aes adv s) as [s1 r] eqn:R. pose proof (resolve_who _ _ _ _ _ R) as W.
  pose proof (resolve_frame _ _ _ _ _ R) as (l & E & F). subst s1. rewrite <- W in MC.
  apply (filter_connects (with_resolving l s)) in MC. rewrite MC in H. cbn [negb] in H.
  assert (X : d && negb (validate_target aes (with_resolving l s) target r) = false).
  { destruct d; [|reflexivity]. destruct (LT eq_refl) as [T _]. rewrite (validate_ident aes s l target r F), addressed_validate; [reflexivity|].
    rewrite W. destruct T as [T|[T|T]]; [left; now left|left; now right|right; exact T]. }
  assert (Y : d && negb (is_rpa target) && uses_rpa (init_own (init (with_resolving l s))) = false).
  { destruct d; [|reflexivity]. destruct (LT eq_refl) as [_ T]. le_simpl. destruct T as [-> |[-> | ->]]; [reflexivity|apply andb_false_r|apply andb_false_r]. }
  rewrite X, Y in H.
  destruct (generate _ _ _ _ _) as [s1 r1] eqn:G. apply generate_frame in G as (l1 & p1 & -> & _).
  destruct (initiating_address _ _) as [x|]; [|discriminate]. injection H as <- <-. do 4 eexists. left. reflexivity.
Qed.
Theorem directed_connected h s now p adv tgt given s' st out : history h s -> step now s (Receive p) = Ok s' st out ->
  offers p = Some (adv, Some tgt) -> init_enabled (init s) = true -> init_pending (init s) = None -> connection_given h = Some given ->
  (forall i, known_as aes s adv i -> may_connect_to s given i) ->
  (forall i, known_as aes s adv i -> addressed_here aes s tgt i) ->
  is_rpa tgt = true \/ init_own (init s) = OWN_PUBLIC \/ init_own (init s) = OWN_RANDOM ->
  (exists t d, p = AirLegacy adv tgt t d) \/ first_family unchecked h = Some Extended ->
  exists a x y z, In (Sent (AirConnect a adv x y z)) out.
Proof.
  intros H S O EN PE G A TG OW FAM. rewrite (connection_history _ _ _ _ _ H EN) in G. injection G as <-.
  destruct p; try discriminate O.
  - cbn [LeHost.step receive] in S. unfold of_effect, receive_legacy_pdu in S.
    destruct (then_also _ _) as [s1 o1| |] eqn:E in S; try discriminate S. ok S.
    apply then_also_inv in E. destruct E as (s2 & o2 & o3 & E1 & E2 & ->).
    apply scan_legacy_touched in E1 as (? & ? & l & ? & -> & F).
    unfold connect_legacy_pdu in E2. le_simpl_in E2. rewrite EN, PE in E2. cbn [negb is_some] in E2.
    destruct t; try discriminate O. cbn [negb orb] in E2. injection O as -> ->.
    apply connect_to_sends_directed in E2; [|intros _; split; [unfold addressed_here; le_simpl; rewrite who_touched by exact F; apply (addressed_touched s l _ _ F), TG, who_known|exact OW]|le_simpl; rewrite who_touched by exact F; apply A, who_known].
    destruct E2 as (a & x' & y & z & I). exists a, x', y, z. apply in_app_iff. auto.
  - cbn [LeHost.step receive] in S. unfold of_effect, receive_extended_pdu in S.
    destruct (then_also _ _) as [s1 o1| |] eqn:E in S; try discriminate S. ok S.
    apply then_also_inv in E. destruct E as (s2 & o2 & o3 & E1 & E2 & ->).
    apply scan_extended_touched in E1 as (? & ? & l & ? & -> & F).
    unfold connect_extended_pdu in E2. le_simpl_in E2. rewrite EN, PE in E2. cbn [negb is_some] in E2.
    assert (EX : extended_used s = true).
    { destruct FAM as [(? & ? & FAM)|FAM]; [discriminate FAM|]. pose proof (flags_history _ _ _ _ _ H) as FL. rewrite FAM in FL. apply FL. }
    rewrite EX in E2. cbn [negb] in E2. cbn [offers] in O. destruct conn; [|discriminate O]. destruct dir; [|discriminate O]. injection O as -> ->. cbn [negb orb] in E2.
    apply connect_to_sends_directed in E2; [|intros _; split; [unfold addressed_here; le_simpl; rewrite who_touched by exact F; apply (addressed_touched s l _ _ F), TG, who_known|exact OW]|le_simpl; rewrite who_touched by exact F; apply A, who_known].
    destruct E2 as (a & x' & y & z & I). exists a, x', y, z. apply in_app_iff. auto.
Qed.
End WithController.
