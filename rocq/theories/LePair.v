(** Proofs for LePairSpec.v: the two controllers agree on their connections. *)
From Verif Require Import Prelude Address Rpa Table LeTypes LeAdvertise LeLists LeScan LeInitiate LeHost LeHistory LeTac LeFrame LeStep LeSets LeOutputs LeInitProofs LeLedgerSpec LeLedger LePairSpec.
From Verif Require Handles HandlesProofs.
Open Scope N_scope.

(** * One controller *)

Definition said (o : list output) : list air := List.filter connecting (packets o).
Definition bye (kv : N * le_conn) : air := AirDisconnect (awt_addr (c_own (snd kv))) (awt_addr (c_peer (snd kv))) 19.

Lemma packets_app a b : packets (a ++ b) = packets a ++ packets b.
Proof. unfold packets. apply flat_map_app. Qed.
Lemma said_app a b : said (a ++ b) = said a ++ said b.
Proof. unfold said. rewrite packets_app. apply filter_app. Qed.

Definition links_of_step (s : le) (o : op) (s' : le) (out : list output) : Prop :=
  match o with
  | Command Reset => conns s' = [] /\ said out = map bye (conns s) /\ handles_fine (conns s') (last_handle s') 
  | Command (Disconnect h r _) =>
      match lookup (conns s) h with
      | None => conns s' = conns s /\ last_handle s' = last_handle s /\ said out = []
      | Some c => conns s' = erase (conns s) h /\ last_handle s' = last_handle s /\ said out = [AirDisconnect (awt_addr (c_own c)) (awt_addr (c_peer c)) r]
      end
  | Receive (AirDisconnect src dst r) =>
      said out = [] /\ last_handle s' = last_handle s /\
      match find_connection dst src (conns s) with
      | None => conns s' = conns s
      | Some h => conns s' = erase (conns s) h
      end
  | Receive (AirConnect i adv x y z) =>
      (conns s' = conns s /\ last_handle s' = last_handle s /\ said out = []) \/
      (exists h res last, Handles.get_unused_handle (conns s) Handles.kLeAclRangeStart Handles.kLeAclRangeEnd (last_handle s) = Some (h, last) /\
         conns s' = (h, LeConn i adv res false x y z) :: conns s /\ last_handle s' = last /\ said out = [AirConnectComplete i adv x y z])
  | Receive (AirConnectComplete i adv x y z) =>
      said out = [] /\
      ((conns s' = conns s /\ last_handle s' = last_handle s) \/
      (exists h res last, Handles.get_unused_handle (conns s) Handles.kLeAclRangeStart Handles.kLeAclRangeEnd (last_handle s) = Some (h, last) /\
         conns s' = (h, LeConn adv i res true x y z) :: conns s /\ last_handle s' = last))
  | Receive (AirLegacy _ _ _ _ | AirExtended _ _ _ _ _ _ _ _ _ _ _) =>
      conns s' = conns s /\ last_handle s' = last_handle s /\
      (said out = [] \/ (init_enabled (init s) = true /\ exists a adv x y z, said out = [AirConnect a adv x y z]))
  | _ => conns s' = conns s /\ last_handle s' = last_handle s /\ said out = []
  end.

Section WithController.
Variable aes : list N -> list N -> list N.
Variable rng : N -> N.
Variable cfg : config.
Notation step := (step aes rng cfg).

Lemma silent s o out : Forall (fine s o) out -> (forall p, connecting p = true -> may_send o p = false) -> said out = [].
Proof.
  intros F M. induction F as [|x out X F IH]; [reflexivity|]. change (x :: out) with ([x] ++ out). rewrite said_app, IH, app_nil_r.
  destruct x as [p|e]; [|reflexivity]. cbn [fine] in X. unfold said. cbn [packets flat_map app List.filter]. destruct (connecting p) eqn:C; [|reflexivity].
  rewrite (M _ C) in X. discriminate.
Qed.

Lemma no_connect_silent s o out : Forall (fine s o) out -> Forall no_connect out ->
  (forall p, connecting p = true -> is_request p = false -> may_send o p = false) -> said out = [].
Proof.
  intros F NC M. induction F as [|x out X F IH]; [reflexivity|]. inversion NC as [|x' out' N NC']; subst.
  change (x :: out) with ([x] ++ out). rewrite said_app, IH, app_nil_r by exact NC'.
  destruct x as [p|e]; [|reflexivity]. cbn [fine] in X. unfold said. cbn [packets flat_map app List.filter]. destruct (connecting p) eqn:C; [|reflexivity].
  rewrite (M _ C) in X; [discriminate|]. destruct p; try reflexivity; destruct N.
Qed.

Lemma connect_to_said adv tgt d s s' o : connect_to aes rng adv tgt d s = Some (s', o) ->
  said o = [] \/ exists a x y z, said o = [AirConnect a adv x y z].
Proof.
  unfold connect_to. intros H. destruct (resolve aes adv s) as [s1 r].
  do 3 (destruct (_ : bool) in H at 1; [injection H as <- <-; left; reflexivity|]).
  destruct (generate _ _ _ _ _) as [s2 r2]. destruct (initiating_address _ _) as [a|]; [|discriminate]. injection H as <- <-.
  right. eexists _, _, _, _. reflexivity.
Qed.

Lemma handle_connection_said peer resolved own central i lat sup cs s s' h o :
  handle_connection peer resolved own central i lat sup cs s = Some (s', h, o) -> said o = [].
Proof.
  unfold handle_connection. intros H. destruct (Handles.get_unused_handle _ _ _ _) as [[h' last]|]; [|discriminate]. injection H as _ _ <-.
  rewrite said_app. repeat match goal with |- context [if ?b then _ else _] => destruct b end; reflexivity.
Qed.

Lemma sets_connect_links m : forall i adv x y z s s' o, sets_connect_request aes m i adv x y z s = Next s' o ->
  links_of_step s (Receive (AirConnect i adv x y z)) s' o.
Proof.
  induction m as [|[h a] m IH]; cbn [sets_connect_request]; intros i adv x y z s s' o H.
  - injection H as <- <-. left. auto.
  - destruct (set_connect_request aes h a i adv x y z s) as [e|e] eqn:E.
    + subst e. right. unfold set_connect_request in E. destruct (negb _) in E; [discriminate|].
      destruct (resolve aes i s) as [s1 r] eqn:R. apply resolve_frame in R as (l & -> & _).
      destruct (negb _) in E; [discriminate|]. injection E as E.
      destruct (handle_connection _ _ _ _ _ _ _ _ _) as [[[s2 c] o2]|] eqn:HC in E; [|discriminate].
      pose proof (handle_connection_said _ _ _ _ _ _ _ _ _ _ _ _ HC) as SD.
      destruct (handle_connection_frame _ _ _ _ _ _ _ _ _ _ _ _ HC) as (last & ia & -> & G & _).
      injection E as <- <-. exists c, (resolved_or_none r i), last. split; [exact G|]. split; [reflexivity|]. split; [reflexivity|].
      rewrite !said_app, SD. destruct (le_event_unmasked _ 18); reflexivity.
    + destruct (set_connect_request_frame _ _ _ _ _ _ _ _ _ _ E) as (l & -> & _). exact (IH _ _ _ _ _ _ _ _ H).
Qed.

Lemma step_links now s o s' st out : step now s o = Ok s' st out -> links_of_step s o s' out.
Proof.
  intros S. pose proof (step_fine _ _ _ _ _ _ _ _ _ S) as F.
  assert (touches o PConns = false -> conns s' = conns s /\ last_handle s' = last_handle s) as K.
  { intros T. exact (step_same _ _ _ _ _ _ _ _ _ S PConns T). }
  destruct o as [c|p|].
  - destruct c; cbn [links_of_step]; try (destruct (K eq_refl) as [K1 K2]; split; [exact K1|split; [exact K2|]]; apply (silent _ _ _ F); intros [] XX; try discriminate XX; reflexivity).
    + cbn [LeHost.step run_command] in S. unfold reset, loud in S. ok S. split; [reflexivity|]. split.
      * unfold said. clear. induction (conns s) as [|kv m IH]; [reflexivity|]. cbn [map packets flat_map app List.filter connecting]. f_equal. exact IH.
      * constructor; [constructor|intros ? []|]. vm_compute. split; discriminate.
    + cbn [LeHost.step run_command] in S. unfold disconnect, loud in S. destruct (lookup (conns s) h) as [c|]; ok S; [|repeat split; reflexivity].
      split; [reflexivity|]. split; [reflexivity|]. unfold disconnection_event. destruct (event_unmasked s 5); reflexivity.
  - destruct p; cbn [links_of_step]; try (destruct (K eq_refl) as [K1 K2]; split; [exact K1|split; [exact K2|]]; apply (silent _ _ _ F); intros [] XX; try discriminate XX; reflexivity);
      cbn [LeHost.step receive] in S.
    + destruct (K eq_refl) as [K1 K2]. split; [exact K1|]. split; [exact K2|].
      unfold of_effect, receive_legacy_pdu in S. destruct (then_also _ _) as [s1 o1| |] eqn:E; try discriminate. ok S.
      apply then_also_inv in E as (s2 & o2 & o3 & E1 & E2 & ->). rewrite said_app.
      apply Forall_app in F as [F1 F2]. rewrite (no_connect_silent _ _ _ F1 (scan_legacy_no_connect _ _ _ _ _ _ _ _ _ _ E1)); [|intros [] XX YY; try discriminate XX; try discriminate YY; reflexivity].
      apply scan_legacy_touched in E1 as (? & ? & ? & ? & -> & _). unfold connect_legacy_pdu in E2. le_simpl_in E2.
      destruct (init_enabled (init s)); cbn [negb] in E2; [|injection E2 as <- <-; left; reflexivity].
      destruct (_ || _) in E2; [injection E2 as <- <-; left; reflexivity|].
      destruct (connect_to_said _ _ _ _ _ _ E2) as [E|(a0 & u0 & v0 & w0 & E)]; [left; exact E|right]. split; [reflexivity|]. eauto 6.
    + destruct (K eq_refl) as [K1 K2]. split; [exact K1|]. split; [exact K2|].
      unfold of_effect, receive_extended_pdu in S. destruct (then_also _ _) as [s1 o1| |] eqn:E; try discriminate. ok S.
      apply then_also_inv in E as (s2 & o2 & o3 & E1 & E2 & ->). rewrite said_app.
      apply Forall_app in F as [F1 F2]. rewrite (no_connect_silent _ _ _ F1 (scan_extended_no_connect _ _ _ _ _ _ _ _ _ _ _ _ _ _ _ _ _ _ E1)); [|intros [] XX YY; try discriminate XX; try discriminate YY; reflexivity].
      apply scan_extended_touched in E1 as (? & ? & ? & ? & -> & _). unfold connect_extended_pdu in E2. le_simpl_in E2.
      destruct (init_enabled (init s)); cbn [negb] in E2; [|injection E2 as <- <-; left; reflexivity].
      do 2 (destruct (_ : bool) in E2 at 1; [injection E2 as <- <-; left; reflexivity|]).
      destruct (connect_to_said _ _ _ _ _ _ E2) as [E|(a0 & u0 & v0 & w0 & E)]; [left; exact E|right]. split; [reflexivity|]. eauto 6.
    + unfold of_effect in S. destruct (receive_connect _ _ _ _ _ _ _) as [s1 o1| |] eqn:E; try discriminate. ok S.
      unfold receive_connect in E. destruct (legacy_connect_request _ _ _ _ _ _ _) as [e|s2] eqn:L.
      * subst e. right. unfold legacy_connect_request in L. destruct (negb _) in L; [discriminate|].
        destruct (resolve aes initiator s) as [s3 r] eqn:R. apply resolve_frame in R as (l & -> & _).
        destruct (negb _) in L; [discriminate|]. injection L as L.
        destruct (handle_connection _ _ _ _ _ _ _ _ _) as [[[s4 c] o2]|] eqn:HC in L; [|discriminate].
        pose proof (handle_connection_said _ _ _ _ _ _ _ _ _ _ _ _ HC) as SD.
        destruct (handle_connection_frame _ _ _ _ _ _ _ _ _ _ _ _ HC) as (last & ia & -> & G & _).
        injection L as <- <-. exists c, (resolved_or_none r initiator), last. split; [exact G|]. split; [reflexivity|]. split; [reflexivity|].
        rewrite said_app, SD. reflexivity.
      * apply sets_connect_links in E. assert (exists l, s2 = with_resolving l s) as [l ->]; [|exact E].
        unfold legacy_connect_request in L. destruct (negb _) in L; [injection L as <-; exists (resolving s); destruct s; reflexivity|].
        destruct (resolve aes initiator s) as [s3 r] eqn:R. apply resolve_frame in R as (l & -> & _).
        destruct (negb _) in L; [|discriminate]. injection L as <-. now exists l.
    + split; [apply (silent _ _ _ F); intros [] XX; try discriminate XX; reflexivity|].
      unfold of_effect in S. destruct (receive_connect_complete _ _ _ _ _ _ _) as [s1 o1| |] eqn:E; try discriminate. ok S.
      unfold receive_connect_complete in E. destruct (_ && _) in E; [injection E as <- <-; left; auto|]. right.
      destruct (if is_rpa adv then _ else _) as [s2 r] eqn:R.
      assert (exists l, s2 = with_resolving l s) as [l ->].
      { destruct (is_rpa adv); [destruct (resolve_private_address _ _ _ _) as [l x]; injection R as <- <-; now exists l|].
        injection R as <- <-. exists (resolving s). destruct s; reflexivity. }
      destruct (handle_connection _ _ _ _ _ _ _ _ _) as [[[s4 c] o2]|] eqn:HC in E; [|discriminate]. injection E as <- <-.
      destruct (handle_connection_frame _ _ _ _ _ _ _ _ _ _ _ _ HC) as (last & ia & -> & G & _).
      exists c, r, last. split; [exact G|]. split; reflexivity.
    + unfold of_pair, receive_disconnect in S. destruct (find_connection _ _ _) as [h|]; ok S; (split; [|split; reflexivity]);
        [unfold disconnection_event; destruct (event_unmasked s 5)|]; reflexivity.
  - destruct (K eq_refl) as [K1 K2]. split; [exact K1|]. split; [exact K2|]. apply (silent _ _ _ F). intros [] XX; try discriminate XX; reflexivity.
Qed.

Lemma step_handles now s o s' st out : step now s o = Ok s' st out -> handles_fine (conns s) (last_handle s) -> handles_fine (conns s') (last_handle s').
Proof.
  intros S H. apply step_links in S.
  assert (forall E1 : conns s' = conns s, last_handle s' = last_handle s -> handles_fine (conns s') (last_handle s')) as K by (intros -> ->; exact H).
  destruct o as [c|p|]; [destruct c|destruct p|]; cbn [links_of_step] in S; try (destruct S as (S1 & S2 & _); exact (K S1 S2)).
  - apply S.
  - destruct (lookup _ _); destruct S as (S1 & S2 & _); [|exact (K S1 S2)]. rewrite S1, S2. now apply HandlesProofs.tinv_erase.
  - destruct S as [(S1 & S2 & _)|(h & res & last & G & -> & -> & _)]; [exact (K S1 S2)|]. exact (HandlesProofs.tinv_add _ _ eq_refl _ _ _ _ _ H G).
  - destruct S as [_ [(S1 & S2)|(h & res & last & G & -> & ->)]]; [exact (K S1 S2)|]. exact (HandlesProofs.tinv_add _ _ eq_refl _ _ _ _ _ H G).
  - destruct S as (_ & S2 & S1). destruct (find_connection _ _ _); [|exact (K S1 S2)]. rewrite S1, S2. now apply HandlesProofs.tinv_erase.
Qed.

(** Without an attempt nothing is asked *)
Definition creates (o : op) : bool := is_attempt o.
Lemma step_never now s o s' st out : step now s o = Ok s' st out -> init_enabled (init s) = false -> creates o = false -> init_enabled (init s') = false.
Proof.
  intros S I C. destruct (is_reset o) eqn:R.
  { destruct o as [[]| |]; try discriminate. cbn [LeHost.step run_command] in S. unfold reset, loud in S. ok S. reflexivity. }
  pose proof (init_phys_kept _ _ _ _ _ _ _ _ _ S) as K.
  assert (sets_init_phys o = false) as T by (destruct o as [[]| |]; try discriminate; reflexivity).
  specialize (K T). destruct K as (K & _). destruct (init_enabled (init s')); [|reflexivity]. rewrite <- I. symmetry. apply K. reflexivity.
Qed.

(** One request for each attempt *)
Definition requested (s : le) : Prop := init_enabled (init s) = true /\ is_some (init_pending (init s)) = true.

Lemma connect_to_requested adv tgt d s s' o : connect_to aes rng adv tgt d s = Some (s', o) -> init_enabled (init s) = true -> said o <> [] -> requested s'.
Proof.
  unfold connect_to. intros H EN N. destruct (resolve aes adv s) as [s1 r] eqn:R. apply resolve_frame in R as (l & -> & _).
  do 3 (destruct (_ : bool) in H at 1; [injection H as <- <-; destruct (N eq_refl)|]).
  destruct (generate _ _ _ _ _) as [s2 r2] eqn:G. apply generate_frame in G as (l2 & q & -> & _). destruct (initiating_address _ _) as [a|]; [|discriminate]. injection H as <- <-.
  split; [exact EN|reflexivity].
Qed.

Lemma step_requests now s o s' st out : step now s o = Ok s' st out -> existsb is_request (said out) = true -> requested s'.
Proof.
  intros S H. pose proof (step_links _ _ _ _ _ _ S) as K. pose proof (step_fine _ _ _ _ _ _ _ _ _ S) as F.
  assert (forall l, said out = l -> existsb is_request l = false -> False) as X by (intros l EL E; rewrite EL in H; congruence).
  destruct o as [c|p|]; [destruct c|destruct p|]; cbn [links_of_step] in K; try (destruct K as (_ & _ & K); destruct (X _ K eq_refl)).
  - exfalso. destruct K as (_ & K & _). apply (X _ K). clear. induction (conns s) as [|kv m IH]; [reflexivity|exact IH].
  - destruct (lookup _ _); destruct K as (_ & _ & K); destruct (X _ K eq_refl).
  - cbn [LeHost.step receive] in S. unfold of_effect, receive_legacy_pdu in S. destruct (then_also _ _) as [s1 o1| |] eqn:E; try discriminate. ok S.
    apply then_also_inv in E as (s2 & o2 & o3 & E1 & E2 & ->). rewrite said_app in H.
    apply Forall_app in F as [F1 F2]. rewrite (no_connect_silent _ _ _ F1 (scan_legacy_no_connect _ _ _ _ _ _ _ _ _ _ E1)) in H; [|intros [] XX YY; try discriminate XX; try discriminate YY; reflexivity].
    apply scan_legacy_touched in E1 as (? & ? & ? & ? & -> & _). unfold connect_legacy_pdu in E2. le_simpl_in E2.
    destruct (init_enabled (init s)) eqn:EN; cbn [negb] in E2; [|injection E2 as <- <-; discriminate H].
    destruct (_ || _) in E2; [injection E2 as <- <-; discriminate H|].
    apply (connect_to_requested _ _ _ _ _ _ E2); [le_simpl; exact EN|]. intros N. cbn [app] in H. rewrite N in H. discriminate.
  - cbn [LeHost.step receive] in S. unfold of_effect, receive_extended_pdu in S. destruct (then_also _ _) as [s1 o1| |] eqn:E; try discriminate. ok S.
    apply then_also_inv in E as (s2 & o2 & o3 & E1 & E2 & ->). rewrite said_app in H.
    apply Forall_app in F as [F1 F2]. rewrite (no_connect_silent _ _ _ F1 (scan_extended_no_connect _ _ _ _ _ _ _ _ _ _ _ _ _ _ _ _ _ _ E1)) in H; [|intros [] XX YY; try discriminate XX; try discriminate YY; reflexivity].
    apply scan_extended_touched in E1 as (? & ? & ? & ? & -> & _). unfold connect_extended_pdu in E2. le_simpl_in E2.
    destruct (init_enabled (init s)) eqn:EN; cbn [negb] in E2; [|injection E2 as <- <-; discriminate H].
    do 2 (destruct (_ : bool) in E2 at 1; [injection E2 as <- <-; discriminate H|]).
    apply (connect_to_requested _ _ _ _ _ _ E2); [le_simpl; exact EN|]. intros N. cbn [app] in H. rewrite N in H. discriminate.
  - destruct K as [(_ & _ & K)|(? & ? & ? & _ & _ & _ & K)]; destruct (X _ K eq_refl).
  - destruct K as [K _]. destruct (X _ K eq_refl).
  - destruct K as [K _]. destruct (X _ K eq_refl).
Qed.

Lemma sets_connect_pending m : forall i adv x y z s s' o, sets_connect_request aes m i adv x y z s = Next s' o ->
  init_enabled (init s') = init_enabled (init s) /\ init_pending (init s') = init_pending (init s).
Proof.
  induction m as [|[h a] m IH]; cbn [sets_connect_request]; intros i adv x y z s s' o H.
  - injection H as <- <-. auto.
  - destruct (set_connect_request aes h a i adv x y z s) as [e|e] eqn:E.
    + subst e. unfold set_connect_request in E. destruct (negb _) in E; [discriminate|].
      destruct (resolve aes i s) as [s1 r] eqn:R. apply resolve_frame in R as (l & -> & _).
      destruct (negb _) in E; [discriminate|]. injection E as E.
      destruct (handle_connection _ _ _ _ _ _ _ _ _) as [[[s2 c] o2]|] eqn:HC in E; [|discriminate].
      destruct (handle_connection_frame _ _ _ _ _ _ _ _ _ _ _ _ HC) as (last & ia & -> & G & _).
      injection E as <- <-. le_simpl. auto.
    + destruct (set_connect_request_frame _ _ _ _ _ _ _ _ _ _ E) as (l & -> & _). exact (IH _ _ _ _ _ _ _ _ H).
Qed.

Definition interrupts (o : op) : bool := match o with Command (Reset | CancelConnection) | Receive (AirConnectComplete _ _ _ _ _) => true | _ => false end.

Lemma step_waits now s o s' st out : step now s o = Ok s' st out -> requested s -> interrupts o = false ->
  requested s' /\ existsb is_request (said out) = false.
Proof.
  intros S [R1 R2] T. pose proof (step_links _ _ _ _ _ _ S) as K. pose proof (step_fine _ _ _ _ _ _ _ _ _ S) as F.
  assert (init s' = init s -> requested s') as KI by (intros E; unfold requested; now rewrite E).
  assert (touches o PInit = false -> requested s') as KT by (intros E; exact (KI (step_same _ _ _ _ _ _ _ _ _ S PInit E))).
  assert (forall l, said out = l -> existsb is_request l = false -> existsb is_request (said out) = false) as X by (intros l EL E; rewrite EL; exact E).
  destruct o as [c|p|]; [destruct c|destruct p|]; try discriminate T; cbn [links_of_step] in K;
    try (destruct K as (_ & _ & K); split; [exact (KT eq_refl)|exact (X _ K eq_refl)]).
  - destruct K as (_ & _ & K). split; [|exact (X _ K eq_refl)]. apply KI. cbn [LeHost.step run_command] in S. unfold quiet, create_connection in S.
    destruct (select_legacy s) as [s1|] eqn:SL; [|ok S; reflexivity]. unfold select_legacy in SL. destruct (extended_used s); [discriminate|]. injection SL as <-. le_simpl_in S. rewrite R1 in S. ok S. reflexivity.
  - destruct K as (_ & _ & K). split; [|exact (X _ K eq_refl)]. apply KI. cbn [LeHost.step run_command] in S. unfold quiet, ext_create_connection in S.
    destruct (select_extended s) as [s1|] eqn:SL; [|ok S; reflexivity]. unfold select_extended in SL. destruct (legacy_used s); [discriminate|]. injection SL as <-. le_simpl_in S. rewrite R1 in S. ok S. reflexivity.
  - split; [exact (KT eq_refl)|]. destruct (lookup _ _); destruct K as (_ & _ & K); exact (X _ K eq_refl).
  - cbn [LeHost.step receive] in S. unfold of_effect, receive_legacy_pdu in S. destruct (then_also _ _) as [s1 o1| |] eqn:E; try discriminate. ok S.
    apply then_also_inv in E as (s2 & o2 & o3 & E1 & E2 & ->). rewrite said_app.
    apply Forall_app in F as [F1 F2]. rewrite (no_connect_silent _ _ _ F1 (scan_legacy_no_connect _ _ _ _ _ _ _ _ _ _ E1)); [|intros [] XX YY; try discriminate XX; try discriminate YY; reflexivity].
    apply scan_legacy_touched in E1 as (? & ? & ? & ? & -> & _). unfold connect_legacy_pdu in E2. le_simpl_in E2.
    rewrite R1, R2, orb_true_r in E2. cbn [negb] in E2. injection E2 as <- <-. split; [|reflexivity]. split; le_simpl; assumption.
  - cbn [LeHost.step receive] in S. unfold of_effect, receive_extended_pdu in S. destruct (then_also _ _) as [s1 o1| |] eqn:E; try discriminate. ok S.
    apply then_also_inv in E as (s2 & o2 & o3 & E1 & E2 & ->). rewrite said_app.
    apply Forall_app in F as [F1 F2]. rewrite (no_connect_silent _ _ _ F1 (scan_extended_no_connect _ _ _ _ _ _ _ _ _ _ _ _ _ _ _ _ _ _ E1)); [|intros [] XX YY; try discriminate XX; try discriminate YY; reflexivity].
    apply scan_extended_touched in E1 as (? & ? & ? & ? & -> & _). unfold connect_extended_pdu in E2. le_simpl_in E2.
    rewrite R1, R2, orb_true_r in E2. cbn [negb] in E2. split; [|destruct (negb _) in E2; injection E2 as <- <-; reflexivity].
    destruct (negb _) in E2; injection E2 as <- <-; split; le_simpl; assumption.
  - split; [|destruct K as [(_ & _ & K)|(? & ? & ? & _ & _ & _ & K)]; exact (X _ K eq_refl)].
    cbn [LeHost.step receive] in S. unfold of_effect in S. destruct (receive_connect _ _ _ _ _ _ _) as [s1 o1| |] eqn:E; try discriminate. ok S.
    unfold receive_connect in E. destruct (legacy_connect_request _ _ _ _ _ _ _) as [e|s2] eqn:L.
    + subst e. unfold legacy_connect_request in L. destruct (negb _) in L; [discriminate|].
      destruct (resolve aes initiator s) as [s3 r] eqn:R. apply resolve_frame in R as (l & -> & _).
      destruct (negb _) in L; [discriminate|]. injection L as L.
      destruct (handle_connection _ _ _ _ _ _ _ _ _) as [[[s4 c] o2]|] eqn:HC in L; [|discriminate].
      destruct (handle_connection_frame _ _ _ _ _ _ _ _ _ _ _ _ HC) as (last & ia & -> & G & _).
      injection L as <- <-. split; le_simpl; assumption.
    + apply sets_connect_pending in E as [E1 E2]. assert (exists l, s2 = with_resolving l s) as [l ->]; [|unfold requested; rewrite E1, E2; split; assumption].
      unfold legacy_connect_request in L. destruct (negb _) in L; [injection L as <-; exists (resolving s); destruct s; reflexivity|].
      destruct (resolve aes initiator s) as [s3 r] eqn:R. apply resolve_frame in R as (l & -> & _).
      destruct (negb _) in L; [|discriminate]. injection L as <-. now exists l.
  - split; [exact (KT eq_refl)|]. destruct K as [K _]. exact (X _ K eq_refl).
Qed.
End WithController.
