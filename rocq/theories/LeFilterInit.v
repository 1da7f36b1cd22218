(** The filter policies of the LE controller: the initiator. Proofs. *)
From Verif Require Import Prelude Address Rpa Table LeTypes LeAdvertise LeLists LeScan LeInitiate LeHost LeTac LeFrame LeStep LeSets LeOutputs LeHistory.
From Verif Require Import LeListsSpec LeListsProofs LeParamsSpec LeParamsProofs LeInitProofs LeAdvertSpec LeAdvertProofs LeFilterSpec LeFilter LeFilterMore LeFilterInv.
Open Scope N_scope.

Section WithController.
Variable aes : list N -> list N -> list N.
Variable rng : N -> N.
Variable cfg : config.
Notation step := (step aes rng cfg).
Notation history := (history aes rng cfg).
Notation who := (who aes).

(** * The policy in force *)

Definition same_target (s s' : le) : Prop :=
  (init_enabled (init s') = true -> init_enabled (init s) = true) /\
  init_filter (init s') = init_filter (init s) /\ init_peer (init s') = init_peer (init s).

Lemma same_target_refl s s' : init s' = init s -> same_target s s'.
Proof. intros E. unfold same_target. rewrite E. auto. Qed.
Lemma handle_connection_target peer resolved own central i lat sup cs s s' h o :
  handle_connection peer resolved own central i lat sup cs s = Some (s', h, o) -> same_target s s'.
Proof.
  unfold handle_connection. intros H. destruct (Handles.get_unused_handle _ _ _ _) as [[c last]|]; [|discriminate].
  destruct (list_eqb _ (init_address _)) in H; injection H as <- <- <-; unfold same_target; le_simpl; auto.
Qed.
Lemma same_target_trans a b c : same_target a b -> same_target b c -> same_target a c.
Proof. intros (E1 & E2 & E3) (F1 & F2 & F3). unfold same_target. rewrite F2, F3. auto. Qed.

Lemma sets_connect_target m : forall i adv x y z s s' o,
  sets_connect_request aes m i adv x y z s = Next s' o -> same_target s s'.
Proof.
  induction m as [|[h a] m IH]; cbn [sets_connect_request]; intros i adv x y z s s' o H.
  - injection H as <- <-. now apply same_target_refl.
  - destruct (set_connect_request aes h a i adv x y z s) as [e|s1] eqn:E.
    + subst e. unfold set_connect_request in E. destruct (negb _) in E; [discriminate|].
      destruct (resolve aes i s) as [s1 r] eqn:R. apply resolve_frame in R as (l & -> & _).
      destruct (negb _) in E; [discriminate|]. injection E as E.
      destruct (handle_connection _ _ _ _ _ _ _ _ _) as [[[s2 c] o2]|] eqn:HC in E; [|discriminate].
      injection E as <- <-. apply handle_connection_target in HC. exact HC.
    + assert (init s1 = init s) as EI.
      { unfold set_connect_request in E. destruct (negb _) in E; [now injection E as <-|].
        destruct (resolve aes i s) as [s2 r] eqn:R. apply resolve_frame in R as (l & -> & _).
        destruct (negb _) in E; [now injection E as <-|discriminate]. }
      apply IH in H. eapply same_target_trans; [|exact H]. now apply same_target_refl.
Qed.

Lemma target_kept now s o s' st out : step now s o = Ok s' st out -> sets_init_phys o = false -> same_target s s'.
Proof.
  intros S T. destruct (touches o PInit) eqn:TS.
  2:{ pose proof (step_same _ _ _ _ _ _ _ _ _ S PInit TS) as E. now apply same_target_refl. }
  destruct o as [c|p|]; cbn [LeHost.step] in S; [| |discriminate].
  - destruct c; try discriminate; unfold_step S; crack S; try discriminate; ok S; unfold same_target; le_simpl; auto.
    all: repeat split; intros; auto; discriminate.
  - destruct p; try discriminate; cbn [receive] in S.
    1-2: unfold of_effect, receive_legacy_pdu, receive_extended_pdu in S;
      destruct (then_also _ _) as [s1 o1| |] eqn:E; try discriminate; injection S as <- <- <-;
      apply then_also_inv in E; destruct E as (s2 & o2 & o3 & E1 & E2 & ->); frames; unfold same_target; le_simpl; auto.
    + unfold of_effect in S. destruct (receive_connect _ _ _ _ _ _ _) as [s1 o1| |] eqn:E; try discriminate. ok S.
      unfold receive_connect in E. destruct (legacy_connect_request _ _ _ _ _ _ _) as [e|s2] eqn:L.
      * subst e. unfold legacy_connect_request in L. destruct (negb _) in L; [discriminate|].
        destruct (resolve aes initiator s) as [s3 r] eqn:R. apply resolve_frame in R as (l & -> & _).
        destruct (negb _) in L; [discriminate|]. injection L as L.
        destruct (handle_connection _ _ _ _ _ _ _ _ _) as [[[s4 c] o2]|] eqn:HC in L; [|discriminate].
        injection L as <- <-. apply handle_connection_target in HC. exact HC.
      * assert (init s2 = init s) as EI.
        { unfold legacy_connect_request in L. destruct (negb _) in L; [now injection L as <-|].
          destruct (resolve aes initiator s) as [s3 r] eqn:R. apply resolve_frame in R as (l & -> & _).
          destruct (negb _) in L; [now injection L as <-|discriminate]. }
        apply sets_connect_target in E. eapply same_target_trans; [|exact E]. now apply same_target_refl.
    + unfold of_effect in S. destruct (receive_connect_complete _ _ _ _ _ _ _) as [s1 o1| |] eqn:E; try discriminate. ok S.
      unfold receive_connect_complete in E. destruct (_ && _) in E; [injection E as <- <-; now apply same_target_refl|].
      assert (forall x, init (fst x) = init s ->
        (let '(s, resolved) := x in
         match handle_connection adv resolved initiator true interval latency supervision (extended_used s) s with
         | Some (s0, _, o) => Next (with_init (with_init_pending None (with_init_enabled false (init s0))) s0) o
         | None => Hangs end) = Next s1 o1 -> same_target s s1) as K.
      { intros [s2 r] EI K. cbn [fst] in EI. destruct (handle_connection _ _ _ _ _ _ _ _ _) as [[[s4 c] o2]|] eqn:HC in K; [|discriminate].
        injection K as <- <-. apply handle_connection_target in HC. destruct HC as (_ & H2 & H3).
        unfold same_target. le_simpl. rewrite H2, H3, EI. repeat split; intros; auto; discriminate. }
      apply (K _) in E; [exact E|]. destruct (is_rpa _); [|reflexivity].
      destruct (resolve_private_address _ _ _ _). reflexivity.
Qed.

Lemma create_target now s pol peer o p s' st out :
  step now s (Command (CreateConnection pol peer o p)) = Ok s' st out ->
  (st <> Some SUCCESS /\ same_target s s') \/
  (st = Some SUCCESS /\ init_filter (init s') = pol /\ init_peer (init s') = peer).
Proof.
  intros S. destruct (create_connection_phys _ _ _ _ _ _ _ _ _ _ _ _ S) as [(x & -> & NS & _)|(-> & _)].
  - left. split; [congruence|]. revert S. cbn [LeHost.step run_command]. unfold quiet, create_connection, select_legacy. intros S.
    destruct (extended_used s); [ok S; now apply same_target_refl|]. le_simpl_in S.
    destruct (init_enabled (init s)); [ok S; now apply same_target_refl|].
    destruct (check_connection p); [ok S; now apply same_target_refl|].
    destruct (check_own _ _ _ _ _ _) as [s1 ok1] eqn:O. apply check_own_init in O. le_simpl_in O.
    destruct ok1; cbn [negb] in S; [injection S as _ X _; now elim NS|]. ok S. now apply same_target_refl.
  - right. split; [reflexivity|]. revert S. cbn [LeHost.step run_command]. unfold quiet, create_connection, select_legacy. intros S.
    destruct (extended_used s); [discriminate|]. le_simpl_in S.
    destruct (init_enabled (init s)); [discriminate|].
    destruct (check_connection p) as [x|] eqn:C.
    { exfalso. injection S as _ X _. assert (x <> SUCCESS) by (apply (check_connections_status [p]); cbn [check_connections]; now rewrite C). congruence. }
    destruct (check_own _ _ _ _ _ _) as [s1 ok1] eqn:O.
    destruct ok1; cbn [negb] in S; [|discriminate]. injection S as <- <-. le_simpl. auto.
Qed.
Lemma ext_create_target now s pol o peer phys l s' st out :
  step now s (Command (ExtCreateConnection pol o peer phys l)) = Ok s' st out ->
  (st <> Some SUCCESS /\ same_target s s') \/
  (st = Some SUCCESS /\ init_filter (init s') = pol /\ init_peer (init s') = peer).
Proof.
  intros S. revert S. cbn [LeHost.step run_command]. unfold quiet, ext_create_connection, select_extended. intros S.
  destruct (legacy_used s); [ok S; left; split; [discriminate|now apply same_target_refl]|]. le_simpl_in S.
  do 4 (destruct (_ : bool) in S at 1; [ok S; left; split; [discriminate|now apply same_target_refl]|]).
  destruct (check_connections l) as [x|] eqn:C.
  { ok S. left. split; [|now apply same_target_refl]. apply check_connections_status in C. congruence. }
  destruct (check_own _ _ _ _ _ _) as [s1 ok1] eqn:O. apply check_own_init in O. le_simpl_in O.
  destruct ok1; cbn [negb] in S; ok S; [right; le_simpl; auto|]. left. split; [discriminate|now apply same_target_refl].
Qed.

Lemma connection_skip now o st out h : sets_init_phys o = false \/ (st <> Some SUCCESS /\ o <> Command Reset) ->
  connection_given (Entry now o st out :: h) = connection_given h.
Proof.
  intros [T|[T NR]]; cbn [connection_given what status_of]; destruct o as [[]| |]; try discriminate; try reflexivity; try (now elim NR);
    destruct st as [[]|]; try reflexivity; now elim T.
Qed.
Lemma connection_history h s : history h s -> init_enabled (init s) = true ->
  connection_given h = Some (init_filter (init s), init_peer (init s)).
Proof.
  intros H. cut (match connection_given h with Some g => g = (init_filter (init s), init_peer (init s)) | None => init_enabled (init s) = false end).
  { destruct (connection_given h); congruence. }
  induction H as [a|h s now o s' st out H IH S]; [reflexivity|].
  assert (K : connection_given (Entry now o st out :: h) = connection_given h -> same_target s s' ->
    match connection_given (Entry now o st out :: h) with Some g => g = (init_filter (init s'), init_peer (init s')) | None => init_enabled (init s') = false end).
  { intros -> (E1 & E2 & E3). destruct (connection_given h); [now rewrite E2, E3|]. destruct (init_enabled (init s')); [|reflexivity]. rewrite E1 in IH; [discriminate|reflexivity]. }
  destruct (sets_init_phys o) eqn:T; [|apply K; [apply connection_skip; auto|exact (target_kept _ _ _ _ _ _ S T)]].
  destruct o as [c|p|]; try discriminate. destruct c; try discriminate.
  - cbn [LeHost.step run_command] in S. unfold reset, loud in S. ok S. reflexivity.
  - destruct (create_target _ _ _ _ _ _ _ _ _ S) as [[N E]|(-> & <- & <-)]; [|reflexivity].
    apply K; [apply connection_skip; right; split; [exact N|discriminate]|exact E].
  - destruct (ext_create_target _ _ _ _ _ _ _ _ _ _ S) as [[N E]|(-> & <- & <-)]; [|reflexivity].
    apply K; [apply connection_skip; right; split; [exact N|discriminate]|exact E].
Qed.

(** * Connection requests *)

Lemma filter_connects s i : initiator_filter_ok s i = true <-> may_connect_to s (init_filter (init s), init_peer (init s)) i.
Proof.
  unfold initiator_filter_ok, may_connect_to. cbn [fst snd]. destruct (init_filter (init s)); [apply awt_eqb_eq|apply contains_listed| |]; split; (discriminate || intros []).
Qed.

Lemma existsb_ident (f : resolving_entry -> bool) l : (forall e e', ident e = ident e' -> f e = f e') -> forall l',
  map ident l' = map ident l -> existsb f l' = existsb f l.
Proof.
  intros F. induction l as [|e l IH]; intros [|e' l'] H; try discriminate; [reflexivity|]. cbn [map] in H.
  assert (ident e' = ident e) as E by (unfold ident in *; congruence). assert (map ident l' = map ident l) as E' by congruence.
  cbn [existsb]. now rewrite (F _ _ E), (IH _ E').
Qed.
Lemma validate_ident s l target i : map ident l = map ident (resolving s) ->
  validate_target aes (with_resolving l s) target i = validate_target aes s target i.
Proof.
  intros E. unfold validate_target, resolve_target, resolve_target_a, is_local_address. le_simpl.
  erewrite (existsb_ident _ (resolving s)); [reflexivity| |exact E].
  intros e e' X. unfold ident in X. injection X as X1 X2 X3 X4. now rewrite X1, X2, X4.
Qed.
Lemma validate_addressed s target i : validate_target aes s target i = true -> addressed_here aes s target i.
Proof.
  unfold validate_target, addressed_here, is_local_address. destruct target as [a t]. cbn [awt_type awt_addr]. intros H.
  destruct (match t with PUBLIC_DEVICE => _ | _ => _ end) eqn:L in H.
  - destruct t; try discriminate; apply list_eqb_eq in L; subst; auto.
  - destruct (is_rpa _) in H; [|discriminate]. unfold resolve_target, resolve_target_a in H. apply andb_true_iff in H as [O H].
    apply existsb_exists in H as (e & I & H). apply andb_true_iff in H as [H1 H2]. apply awt_eqb_eq in H1. right; right. eauto.
Qed.

Lemma connect_to_whom adv target d s s' out a b i lat sup :
  connect_to aes rng adv target d s = Some (s', out) -> In (Sent (AirConnect a b i lat sup)) out ->
  b = adv /\ may_connect_to s (init_filter (init s), init_peer (init s)) (who (resolving_on s) (resolving s) adv)
  /\ (d = true -> validate_target aes s target (who (resolving_on s) (resolving s) adv) = true).
Proof.
  unfold connect_to. intros H I. destruct (resolve aes adv s) as [s1 r] eqn:R. pose proof (resolve_who _ _ _ _ _ R) as W.
  pose proof (resolve_frame _ _ _ _ _ R) as (l & E & F). subst s1. rewrite <- W.
  destruct (initiator_filter_ok (with_resolving l s) r) eqn:OK1; cbn [negb] in H; [|injection H as <- <-; destruct I].
  rewrite validate_ident in H by exact F.
  destruct (d && negb (validate_target aes s target r)) eqn:V; [injection H as <- <-; destruct I|].
  destruct (d && _ && _) in H; [injection H as <- <-; destruct I|].
  destruct (generate _ _ _ _ _) as [s1 r1] eqn:G. apply generate_frame in G as (l1 & p1 & -> & _).
  destruct (initiating_address _ _) as [x|]; [|discriminate]. injection H as <- <-.
  destruct I as [I|[]]. injection I as _ <- _ _ _. split; [reflexivity|]. split.
  - now apply (filter_connects (with_resolving l s)).
  - intros ->. cbn [andb] in V. now apply negb_false_iff in V.
Qed.

(** Passing through the scanner first changes nothing the initiator looks at *)
Lemma who_touched s l i : map ident l = map ident (resolving s) -> who (resolving_on s) l i = who (resolving_on s) (resolving s) i.
Proof. intros E. now apply who_ident. Qed.

Theorem requests_filtered h s now o s' st out a b x y z : history h s -> step now s o = Ok s' st out -> In (Sent (AirConnect a b x y z)) out ->
  exists p tgt given i, o = Receive p /\ offers p = Some (b, tgt) /\ connection_given h = Some given /\ init_enabled (init s) = true
    /\ known_as aes s b i /\ may_connect_to s given i /\ (forall t, tgt = Some t -> addressed_here aes s t i).
Proof.
  intros H S I. pose proof (connect_request_initiating _ _ _ _ _ _ _ _ _ _ _ _ _ _ S I) as EN.
  pose proof (connection_history _ _ H EN) as G.
  pose proof (step_fine _ _ _ _ _ _ _ _ _ S) as F. rewrite Forall_forall in F. apply F in I as M. cbn [fine] in M. clear F.
  destruct o as [[]|p|]; try discriminate M. destruct p; try discriminate M; cbn [LeHost.step receive] in S;
    unfold of_effect, receive_legacy_pdu, receive_extended_pdu in S;
    destruct (then_also _ _) as [s1 o1| |] eqn:E in S; try discriminate S; ok S;
    apply then_also_inv in E; destruct E as (s2 & o2 & o3 & E1 & E2 & ->).
  - apply scan_legacy_no_connect in E1 as NC. apply scan_legacy_touched in E1 as (? & ? & l & ? & -> & F).
    apply in_app_iff in I as [I|I]; [rewrite Forall_forall in NC; destruct (NC _ I)|].
    unfold connect_legacy_pdu in E2. le_simpl_in E2. rewrite EN in E2. cbn [negb] in E2.
    destruct (match t with PDU_IND | PDU_DIRECT => true | _ => false end) eqn:C; cbn [negb orb] in E2; [|injection E2 as <- <-; destruct I].
    destruct (is_some _) in E2; [injection E2 as <- <-; destruct I|].
    destruct (connect_to_whom _ _ _ _ _ _ _ _ _ _ _ E2 I) as (-> & MC & V). le_simpl_in MC. le_simpl_in V. rewrite who_touched in MC, V by exact F.
    set (i := who (resolving_on s) (resolving s) adv) in *.
    exists (AirLegacy adv tgt t data), (match t with PDU_DIRECT => Some tgt | _ => None end), (init_filter (init s), init_peer (init s)), i.
    split; [reflexivity|]. split; [destruct t; try discriminate; reflexivity|]. split; [exact G|]. split; [exact EN|]. split; [apply who_known|].
    split; [exact MC|]. intros tt TT. destruct t; try discriminate. injection TT as <-. specialize (V eq_refl).
    match type of V with validate_target _ ?st _ _ = _ => change (validate_target aes (with_resolving l s) tgt i = true) in V end.
    rewrite validate_ident in V by exact F. now apply validate_addressed.
  - apply scan_extended_no_connect in E1 as NC. apply scan_extended_touched in E1 as (? & ? & l & ? & -> & F).
    apply in_app_iff in I as [I|I]; [rewrite Forall_forall in NC; destruct (NC _ I)|].
    unfold connect_extended_pdu in E2. le_simpl_in E2. rewrite EN in E2. cbn [negb] in E2.
    destruct (negb (extended_used s)) in E2; [injection E2 as <- <-; destruct I|].
    destruct conn; cbn [negb orb] in E2; [|injection E2 as <- <-; destruct I].
    destruct (is_some _) in E2; [injection E2 as <- <-; destruct I|].
    destruct (connect_to_whom _ _ _ _ _ _ _ _ _ _ _ E2 I) as (-> & MC & V). le_simpl_in MC. le_simpl_in V. rewrite who_touched in MC, V by exact F.
    set (i := who (resolving_on s) (resolving s) adv) in *.
    eexists _, (if dir then Some tgt else None), (init_filter (init s), init_peer (init s)), i.
    split; [reflexivity|]. split; [reflexivity|]. split; [exact G|]. split; [exact EN|]. split; [apply who_known|].
    split; [exact MC|]. intros tt TT. destruct dir; try discriminate. injection TT as <-. specialize (V eq_refl).
    match type of V with validate_target _ ?st _ _ = _ => change (validate_target aes (with_resolving l s) tgt i = true) in V end.
    rewrite validate_ident in V by exact F. now apply validate_addressed.
Qed.

(** Conversely *)
Lemma connect_to_sends_one adv target s s' out : connect_to aes rng adv target false s = Some (s', out) ->
  may_connect_to s (init_filter (init s), init_peer (init s)) (who (resolving_on s) (resolving s) adv) ->
  exists a x y z, In (Sent (AirConnect a adv x y z)) out.
Proof.
  unfold connect_to. intros H MC. destruct (resolve aes adv s) as [s1 r] eqn:R. pose proof (resolve_who _ _ _ _ _ R) as W.
  pose proof (resolve_frame _ _ _ _ _ R) as (l & E & F). subst s1. rewrite <- W in MC.
  apply (filter_connects (with_resolving l s)) in MC. rewrite MC in H. cbn [negb andb] in H.
  destruct (generate _ _ _ _ _) as [s1 r1] eqn:G. apply generate_frame in G as (l1 & p1 & -> & _).
  destruct (initiating_address _ _) as [x|]; [|discriminate]. injection H as <- <-. do 4 eexists. left. reflexivity.
Qed.
Theorem allowed_connected h s now p adv given s' st out : history h s -> step now s (Receive p) = Ok s' st out ->
  offers p = Some (adv, None) -> init_enabled (init s) = true -> init_pending (init s) = None -> connection_given h = Some given ->
  (forall i, known_as aes s adv i -> may_connect_to s given i) ->
  (exists tgt t d, p = AirLegacy adv tgt t d) \/ first_family unchecked h = Some Extended ->
  exists a x y z, In (Sent (AirConnect a adv x y z)) out.
Proof.
  intros H S O EN PE G A FAM. rewrite (connection_history _ _ H EN) in G. injection G as <-.
  destruct p; try discriminate O.
  - cbn [LeHost.step receive] in S. unfold of_effect, receive_legacy_pdu in S.
    destruct (then_also _ _) as [s1 o1| |] eqn:E in S; try discriminate S. ok S.
    apply then_also_inv in E. destruct E as (s2 & o2 & o3 & E1 & E2 & ->).
    apply scan_legacy_touched in E1 as (? & ? & l & ? & -> & F).
    unfold connect_legacy_pdu in E2. le_simpl_in E2. rewrite EN, PE in E2. cbn [negb is_some] in E2.
    destruct t; try discriminate O. cbn [negb orb] in E2. injection O as ->.
    apply connect_to_sends_one in E2; [|le_simpl; rewrite who_touched by exact F; apply A, who_known].
    destruct E2 as (a & x' & y & z & I). exists a, x', y, z. apply in_app_iff. auto.
  - cbn [LeHost.step receive] in S. unfold of_effect, receive_extended_pdu in S.
    destruct (then_also _ _) as [s1 o1| |] eqn:E in S; try discriminate S. ok S.
    apply then_also_inv in E. destruct E as (s2 & o2 & o3 & E1 & E2 & ->).
    apply scan_extended_touched in E1 as (? & ? & l & ? & -> & F).
    unfold connect_extended_pdu in E2. le_simpl_in E2. rewrite EN, PE in E2. cbn [negb is_some] in E2.
    assert (EX : extended_used s = true).
    { destruct FAM as [(? & ? & ? & FAM)|FAM]; [discriminate FAM|]. pose proof (flags_history _ _ _ _ _ H) as FL. rewrite FAM in FL. apply FL. }
    rewrite EX in E2. cbn [negb] in E2. cbn [offers] in O. destruct conn; [|discriminate O]. destruct dir; [discriminate O|]. injection O as ->. cbn [negb orb] in E2.
    apply connect_to_sends_one in E2; [|le_simpl; rewrite who_touched by exact F; apply A, who_known].
    destruct E2 as (a & x' & y & z & I). exists a, x', y, z. apply in_app_iff. auto.
Qed.
End WithController.

(** With an identity address type in the command, no device address gets a request *)
Lemma identity_peer_ignored : forall aes rng cfg h s now o s' st out a b x y z peer,
  history aes rng cfg h s -> step aes rng cfg now s o = Ok s' st out -> In (Sent (AirConnect a b x y z)) out ->
  connection_given h = Some (USE_PEER_ADDRESS, peer) ->
  awt_type peer = PUBLIC_IDENTITY \/ awt_type peer = RANDOM_IDENTITY ->
  b = peer.
Proof.
  intros aes rng cfg h s now o s' st out a b x y z peer H S I G T.
  destruct (requests_filtered aes rng cfg h s now o s' st out a b x y z H S I) as (p & tgt & given & i & _ & _ & G' & _ & K & M & _).
  rewrite G in G'. injection G' as <-. cbn in M. subst i. destruct K as [[-> _]|(_ & e & _ & _ & _ & E)]; [reflexivity|].
  destruct (peer_identity_type e), T as [T|T]; rewrite T in E; discriminate E.
Qed.
