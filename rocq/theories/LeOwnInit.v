(** The own address of the LE controller in connection requests. Proofs. *)
From Verif Require Import Prelude Address Rpa Table LeTypes LeAdvertise LeLists LeScan LeInitiate LeHost LeTac LeFrame LeStep LeSets LeOutputs LeHistory.
From Verif Require Import LeListsSpec LeListsProofs LeParamsSpec LeParamsProofs LeInitProofs LeAdvertSpec LeAdvertProofs LeFilterSpec LeFilter LeFilterMore LeFilterInv LeFilterInit LeOwnSpec LeOwn.
Open Scope N_scope.

Section WithController.
Variable aes : list N -> list N -> list N.
Variable rng : N -> N.
Variable cfg : config.
Hypothesis cipher : cipher_ok aes.
Notation step := (step aes rng cfg).
Notation history := (history aes rng cfg).
Notation who := (who aes).
Notation obeys := (obeys aes).

(** * The kind of address in force *)

Definition same_own (s s' : le) : Prop :=
  (init_enabled (init s') = true -> init_enabled (init s) = true) /\
  init_own (init s') = init_own (init s).

Lemma same_own_refl s s' : init s' = init s -> same_own s s'.
Proof. intros E. unfold same_own. rewrite E. auto. Qed.
Lemma handle_connection_own peer resolved own central i lat sup cs s s' h o :
  handle_connection peer resolved own central i lat sup cs s = Some (s', h, o) -> same_own s s'.
Proof.
  unfold handle_connection. intros H. destruct (Handles.get_unused_handle _ _ _ _) as [[c last]|]; [|discriminate].
  destruct (list_eqb _ (init_address _)) in H; injection H as <- <- <-; unfold same_own; le_simpl; auto.
Qed.
Lemma same_own_trans a b c : same_own a b -> same_own b c -> same_own a c.
Proof. intros (E1 & E2) (F1 & F2). unfold same_own. rewrite F2. auto. Qed.

Lemma sets_connect_own m : forall i adv x y z s s' o,
  sets_connect_request aes m i adv x y z s = Next s' o -> same_own s s'.
Proof.
  induction m as [|[h a] m IH]; cbn [sets_connect_request]; intros i adv x y z s s' o H.
  - injection H as <- <-. now apply same_own_refl.
  - destruct (set_connect_request aes h a i adv x y z s) as [e|s1] eqn:E.
    + subst e. unfold set_connect_request in E. destruct (negb _) in E; [discriminate|].
      destruct (resolve aes i s) as [s1 r] eqn:R. apply resolve_frame in R as (l & -> & _).
      destruct (negb _) in E; [discriminate|]. injection E as E.
      destruct (handle_connection _ _ _ _ _ _ _ _ _) as [[[s2 c] o2]|] eqn:HC in E; [|discriminate].
      injection E as <- <-. apply handle_connection_own in HC. exact HC.
    + assert (init s1 = init s) as EI.
      { unfold set_connect_request in E. destruct (negb _) in E; [now injection E as <-|].
        destruct (resolve aes i s) as [s2 r] eqn:R. apply resolve_frame in R as (l & -> & _).
        destruct (negb _) in E; [now injection E as <-|discriminate]. }
      apply IH in H. eapply same_own_trans; [|exact H]. now apply same_own_refl.
Qed.

Lemma own_kept now s o s' st out : step now s o = Ok s' st out -> sets_init_phys o = false -> same_own s s'.
Proof.
  intros S T. destruct (touches o PInit) eqn:TS.
  2:{ pose proof (step_same _ _ _ _ _ _ _ _ _ S PInit TS) as E. now apply same_own_refl. }
  destruct o as [c|p|]; cbn [LeHost.step] in S; [| |discriminate].
  - destruct c; try discriminate; unfold_step S; crack S; try discriminate; ok S; unfold same_own; le_simpl; auto.
    all: repeat split; intros; auto; discriminate.
  - destruct p; try discriminate; cbn [receive] in S.
    1-2: unfold of_effect, receive_legacy_pdu, receive_extended_pdu in S;
      destruct (then_also _ _) as [s1 o1| |] eqn:E; try discriminate; injection S as <- <- <-;
      apply then_also_inv in E; destruct E as (s2 & o2 & o3 & E1 & E2 & ->); frames; unfold same_own; le_simpl; auto.
    + unfold of_effect in S. destruct (receive_connect _ _ _ _ _ _ _) as [s1 o1| |] eqn:E; try discriminate. ok S.
      unfold receive_connect in E. destruct (legacy_connect_request _ _ _ _ _ _ _) as [e|s2] eqn:L.
      * subst e. unfold legacy_connect_request in L. destruct (negb _) in L; [discriminate|].
        destruct (resolve aes initiator s) as [s3 r] eqn:R. apply resolve_frame in R as (l & -> & _).
        destruct (negb _) in L; [discriminate|]. injection L as L.
        destruct (handle_connection _ _ _ _ _ _ _ _ _) as [[[s4 c] o2]|] eqn:HC in L; [|discriminate].
        injection L as <- <-. apply handle_connection_own in HC. exact HC.
      * assert (init s2 = init s) as EI.
        { unfold legacy_connect_request in L. destruct (negb _) in L; [now injection L as <-|].
          destruct (resolve aes initiator s) as [s3 r] eqn:R. apply resolve_frame in R as (l & -> & _).
          destruct (negb _) in L; [now injection L as <-|discriminate]. }
        apply sets_connect_own in E. eapply same_own_trans; [|exact E]. now apply same_own_refl.
    + unfold of_effect in S. destruct (receive_connect_complete _ _ _ _ _ _ _) as [s1 o1| |] eqn:E; try discriminate. ok S.
      unfold receive_connect_complete in E. destruct (_ && _) in E; [injection E as <- <-; now apply same_own_refl|].
      assert (forall x, init (fst x) = init s ->
        (let '(s, resolved) := x in
         match handle_connection adv resolved initiator true interval latency supervision (extended_used s) s with
         | Some (s0, _, o) => Next (with_init (with_init_pending None (with_init_enabled false (init s0))) s0) o
         | None => Hangs end) = Next s1 o1 -> same_own s s1) as K.
      { intros [s2 r] EI K. cbn [fst] in EI. destruct (handle_connection _ _ _ _ _ _ _ _ _) as [[[s4 c] o2]|] eqn:HC in K; [|discriminate].
        injection K as <- <-. apply handle_connection_own in HC. destruct HC as (_ & H2).
        unfold same_own. le_simpl. rewrite H2, EI. split; intros; auto; discriminate. }
      apply (K _) in E; [exact E|]. destruct (is_rpa _); [|reflexivity].
      destruct (resolve_private_address _ _ _ _). reflexivity.
Qed.

Lemma create_own now s pol peer o p s' st out :
  step now s (Command (CreateConnection pol peer o p)) = Ok s' st out ->
  (st <> Some SUCCESS /\ same_own s s') \/
  (st = Some SUCCESS /\ init_own (init s') = o).
Proof.
  intros S. destruct (create_connection_phys _ _ _ _ _ _ _ _ _ _ _ _ S) as [(x & -> & NS & _)|(-> & _)].
  - left. split; [congruence|]. revert S. cbn [LeHost.step run_command]. unfold quiet, create_connection, select_legacy. intros S.
    destruct (extended_used s); [ok S; now apply same_own_refl|]. le_simpl_in S.
    destruct (init_enabled (init s)); [ok S; now apply same_own_refl|].
    destruct (check_connection p); [ok S; now apply same_own_refl|].
    destruct (check_own _ _ _ _ _ _) as [s1 ok1] eqn:O. apply check_own_init in O. le_simpl_in O.
    destruct ok1; cbn [negb] in S; [injection S as _ X _; now elim NS|]. ok S. now apply same_own_refl.
  - right. split; [reflexivity|]. revert S. cbn [LeHost.step run_command]. unfold quiet, create_connection, select_legacy. intros S.
    destruct (extended_used s); [discriminate|]. le_simpl_in S.
    destruct (init_enabled (init s)); [discriminate|].
    destruct (check_connection p) as [x|] eqn:C.
    { exfalso. injection S as _ X _. assert (x <> SUCCESS) by (apply (check_connections_status [p]); cbn [check_connections]; now rewrite C). congruence. }
    destruct (check_own _ _ _ _ _ _) as [s1 ok1] eqn:O.
    destruct ok1; cbn [negb] in S; [|discriminate]. injection S as <- <-. le_simpl. auto.
Qed.
Lemma ext_create_own now s pol o peer phys l s' st out :
  step now s (Command (ExtCreateConnection pol o peer phys l)) = Ok s' st out ->
  (st <> Some SUCCESS /\ same_own s s') \/
  (st = Some SUCCESS /\ init_own (init s') = o).
Proof.
  intros S. revert S. cbn [LeHost.step run_command]. unfold quiet, ext_create_connection, select_extended. intros S.
  destruct (legacy_used s); [ok S; left; split; [discriminate|now apply same_own_refl]|]. le_simpl_in S.
  do 4 (destruct (_ : bool) in S at 1; [ok S; left; split; [discriminate|now apply same_own_refl]|]).
  destruct (check_connections l) as [x|] eqn:C.
  { ok S. left. split; [|now apply same_own_refl]. apply check_connections_status in C. congruence. }
  destruct (check_own _ _ _ _ _ _) as [s1 ok1] eqn:O. apply check_own_init in O. le_simpl_in O.
  destruct ok1; cbn [negb] in S; ok S; [right; le_simpl; auto|]. left. split; [discriminate|now apply same_own_refl].
Qed.
Lemma init_own_skip now o st out h : sets_init_phys o = false \/ (st <> Some SUCCESS /\ o <> Command Reset) ->
  init_own_given (Entry now o st out :: h) = init_own_given h.
Proof.
  intros [T|[T NR]]; cbn [init_own_given what status_of]; destruct o as [[]| |]; try discriminate; try reflexivity; try (now elim NR);
    destruct st as [[]|]; try reflexivity; now elim T.
Qed.
Lemma init_own_history h s : history h s -> init_enabled (init s) = true -> init_own_given h = Some (init_own (init s)).
Proof.
  intros H. cut (match init_own_given h with Some g => g = init_own (init s) | None => init_enabled (init s) = false end).
  { destruct (init_own_given h); congruence. }
  induction H as [a|h s now o s' st out H IH S]; [reflexivity|].
  assert (K : init_own_given (Entry now o st out :: h) = init_own_given h -> same_own s s' ->
    match init_own_given (Entry now o st out :: h) with Some g => g = init_own (init s') | None => init_enabled (init s') = false end).
  { intros -> (E1 & E2). destruct (init_own_given h); [now rewrite E2|]. destruct (init_enabled (init s')); [|reflexivity]. rewrite E1 in IH; [discriminate|reflexivity]. }
  destruct (sets_init_phys o) eqn:T; [|apply K; [apply init_own_skip; auto|exact (own_kept _ _ _ _ _ _ S T)]].
  destruct o as [c|p|]; try discriminate. destruct c; try discriminate.
  - cbn [LeHost.step run_command] in S. unfold reset, loud in S. ok S. reflexivity.
  - destruct (create_own _ _ _ _ _ _ _ _ _ S) as [[N E]|(-> & <-)]; [|reflexivity].
    apply K; [apply init_own_skip; right; split; [exact N|discriminate]|exact E].
  - destruct (ext_create_own _ _ _ _ _ _ _ _ _ _ S) as [[N E]|(-> & <-)]; [|reflexivity].
    apply K; [apply init_own_skip; right; split; [exact N|discriminate]|exact E].
Qed.

(** * Connection requests *)

Lemma connect_to_as h adv target d s s' out a b i lat sup : connect_to aes rng adv target d s = Some (s', out) ->
  In (Sent (AirConnect a b i lat sup)) out -> knows h (resolving s) ->
  b = adv /\ obeys h (who (resolving_on s) (resolving s) adv) (public_address s) (random_address s) (init_own (init s)) a.
Proof.
  unfold connect_to. intros H I K. destruct (resolve aes adv s) as [s1 r] eqn:R. pose proof (resolve_who _ _ _ _ _ R) as W.
  pose proof (resolve_frame _ _ _ _ _ R) as (l & E & F). subst s1. rewrite <- W.
  do 3 (destruct (_ : bool) in H at 1; [injection H as <- <-; destruct I|]).
  destruct (generate _ _ _ _ _) as [s1 r1] eqn:G. pose proof (generate_answers _ _ cipher h _ (with_resolving l s) _ _ (knows_touched _ _ _ F K) G) as A.
  apply generate_frame in G as (l1 & p1 & -> & _).
  destruct (initiating_address _ _) as [x|] eqn:C; [|discriminate]. injection H as <- <-.
  destruct I as [I|[]]. injection I as <- <- _ _ _. split; [reflexivity|]. exact (initiating_obeys _ _ _ _ _ _ A C).
Qed.
Theorem connects_obeying h s now o s' st out a b x y z : history h s -> step now s o = Ok s' st out -> In (Sent (AirConnect a b x y z)) out ->
  exists i k, known_as aes s b i /\ init_own_given h = Some k /\ obeys h i (public_address s) (random_given h) k a.
Proof.
  intros H S I. pose proof (connect_request_initiating _ _ _ _ _ _ _ _ _ _ _ _ _ _ S I) as EN.
  pose proof (knows_history _ _ _ _ _ H) as K.
  exists (who (resolving_on s) (resolving s) b), (init_own (init s)). split; [apply who_known|]. split; [exact (init_own_history _ _ H EN)|].
  rewrite (random_history _ _ _ _ _ H).
  pose proof (step_fine _ _ _ _ _ _ _ _ _ S) as F. rewrite Forall_forall in F. apply F in I as M. cbn [fine] in M. clear F.
  destruct o as [[]|p|]; try discriminate M. destruct p; try discriminate M; cbn [LeHost.step receive] in S;
    unfold of_effect, receive_legacy_pdu, receive_extended_pdu in S;
    destruct (then_also _ _) as [s1 o1| |] eqn:E in S; try discriminate S; ok S;
    apply then_also_inv in E; destruct E as (s2 & o2 & o3 & E1 & E2 & ->).
  - apply scan_legacy_no_connect in E1 as NC. apply scan_legacy_touched in E1 as (? & ? & l & ? & -> & F).
    apply in_app_iff in I as [I|I]; [rewrite Forall_forall in NC; destruct (NC _ I)|].
    unfold connect_legacy_pdu in E2. do 2 (destruct (_ : bool) in E2 at 1; [injection E2 as <- <-; destruct I|]).
    destruct (connect_to_as h _ _ _ _ _ _ _ _ _ _ _ E2 I (knows_touched _ _ _ F K)) as (-> & O). le_simpl_in O. rewrite who_touched in O by exact F. exact O.
  - apply scan_extended_no_connect in E1 as NC. apply scan_extended_touched in E1 as (? & ? & l & ? & -> & F).
    apply in_app_iff in I as [I|I]; [rewrite Forall_forall in NC; destruct (NC _ I)|].
    unfold connect_extended_pdu in E2. do 3 (destruct (_ : bool) in E2 at 1; [injection E2 as <- <-; destruct I|]).
    destruct (connect_to_as h _ _ _ _ _ _ _ _ _ _ _ E2 I (knows_touched _ _ _ F K)) as (-> & O). le_simpl_in O. rewrite who_touched in O by exact F. exact O.
Qed.
End WithController.
