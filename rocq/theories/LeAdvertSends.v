(** Proofs about LE advertising: what is sent, enabling and removing sets. *)
From Verif Require Import Prelude Address Rpa Table LeTypes LeAdvertise LeLists LeScan LeInitiate LeHost LeTac LeFrame LeStep.
From Verif Require Import LeHistory LeListsProofs LeSets LeAdvertSpec LeAdvertProofs LeOutputs.
Open Scope N_scope.

Section WithController.
Variable aes : list N -> list N -> list N.
Variable rng : N -> N.
Variable cfg : config.
Notation step := (step aes rng cfg).
Notation history := (history aes rng cfg).

(** * The advertising routine does not abort *)

Lemma legal_pdu : forall p, legacy_pdus p = true -> legal_legacy p = true -> set_legacy_pdu p <> None.
Proof. intros [[] [] [] [] [] [] []]; cbn; intros L; try discriminate L; vm_compute; discriminate. Qed.

Lemma set_timeout_frame : forall s now a a' o, set_timeout s now a = (a', o) ->
  exists e, a' = with_enabled e a /\ (e = true -> enabled a = true).
Proof.
  unfold set_timeout. intros s now a a1 o1 E. destruct (timeout a); [destruct (_ && _)|]; injection E as <- <-;
    [exists false; split; [reflexivity|discriminate]| |]; exists (enabled a); (split; [destruct a; reflexivity|auto]).
Qed.

Lemma set_limit_frame : forall s a a' o, set_limit s a = (a', o) ->
  exists e, a' = with_enabled e a /\ (e = true -> enabled a = true).
Proof.
  unfold set_limit. intros s a a1 o1 E. destruct (_ && _ && _); injection E as <- <-;
    [exists false; split; [reflexivity|discriminate]|]; exists (enabled a); (split; [destruct a; reflexivity|auto]).
Qed.

Lemma advertise_set_runs : forall s now x a, set_ok cfg x a -> exists a' o, advertise_set s now a = Some (a', o).
Proof.
  intros s now x a OK. unfold advertise_set.
  destruct (set_timeout s now a) as [a1 o1] eqn:E1. destruct (set_timeout_frame _ _ _ _ _ E1) as (e1 & -> & _).
  destruct (set_limit s _) as [a2 o2] eqn:E2. destruct (set_limit_frame _ _ _ _ E2) as (e2 & -> & _).
  unfold set_advertise. le_simpl. destruct (_ && _).
  - destruct (legacy_pdus (props a)) eqn:LP.
    + destruct (set_legacy_pdu (props a)) eqn:PD.
      * destruct (set_periodic now _). eexists _, _. reflexivity.
      * elim (legal_pdu _ LP (ok_legal _ _ _ OK LP) PD).
    + destruct (set_periodic now _). eexists _, _. reflexivity.
  - destruct (set_periodic now _). eexists _, _. reflexivity.
Qed.

Lemma advertise_sets_run : forall s now m, (forall x a, In (x, a) m -> set_ok cfg x a) ->
  exists m' o, advertise_sets s now m = Some (m', o).
Proof.
  intros s now. induction m as [|[k a] m IH]; cbn [advertise_sets]; intros OK; [eexists _, _; reflexivity|].
  destruct (advertise_set_runs s now k a (OK k a (or_introl eq_refl))) as (a' & o & ->).
  destruct IH as (m' & o' & ->); [intros x b I; apply OK; now right|]. eexists _, _. reflexivity.
Qed.

Lemma sets_all_ok : forall h s, history h s -> forall x a, In (x, a) (sets s) -> set_ok cfg x a.
Proof.
  intros h s H x a I. apply (sets_ok _ _ _ _ _ H). apply in_lookup_nodup; [exact (sets_nodup _ _ _ _ _ H)|exact I].
Qed.

Lemma tick_runs : forall h s now, history h s -> exists s' out, step now s Tick = Ok s' None out.
Proof.
  intros h s now H. cbn [LeHost.step]. unfold tick, le_advertising.
  destruct (legacy_timeout now s) as [s1 o1] eqn:E1. destruct (legacy_advertise now s1) as [s2 o2] eqn:E2.
  assert (sets s1 = sets s) as S1 by (unfold legacy_timeout in E1; destruct (l_timeout _); [destruct (_ && _)|]; injection E1 as <- <-; reflexivity).
  assert (sets s2 = sets s1) as S2 by (unfold legacy_advertise in E2; destruct (_ && _); [destruct (legacy_pdu_of _)|]; injection E2 as <- <-; reflexivity).
  destruct (advertise_sets_run s2 now (sets s2)) as (m & o3 & ->).
  { rewrite S2, S1. exact (sets_all_ok _ _ H). }
  destruct (le_scanning now _) as [s4 o4]. eexists _, _. reflexivity.
Qed.

(** * What is sent is what is stored *)

(** Where an advertising packet comes from *)
Definition sent_from (s : le) (p : air) : Prop :=
  match p with
  | AirLegacy adv tgt t d =>
      (l_enabled (legacy s) = true /\ adv = l_address (legacy s)
       /\ d = if legacy_directed (l_type (legacy s)) then [] else l_data (legacy s))
      \/ exists x a, lookup (sets s) x = Some a /\ enabled a = true /\ legacy_pdus (props a) = true
           /\ adv = adv_address a /\ d = bytes (adv_data a)
  | AirExtended adv tgt c sc dir si pw pr se pi d =>
      exists x a, lookup (sets s) x = Some a /\ enabled a = true /\ legacy_pdus (props a) = false
        /\ adv = adv_address a /\ si = sid a /\ d = bytes (adv_data a)
  | AirPeriodic adv si pw pi d =>
      exists x a, lookup (sets s) x = Some a /\ periodic_on a = true
        /\ adv = adv_address a /\ si = sid a /\ pi = periodic_interval a /\ d = bytes (periodic_data a)
  | AirScanResponse adv dst d =>
      (l_enabled (legacy s) = true /\ legacy_scannable (l_type (legacy s)) = true
       /\ adv = l_address (legacy s) /\ d = l_scan_data (legacy s))
      \/ exists x a, lookup (sets s) x = Some a /\ enabled a = true /\ scannable (props a) = true
           /\ adv = adv_address a /\ d = bytes (scan_data a)
  | _ => True
  end.

Lemma advertise_set_sends : forall s0 s now x a a' o p, advertise_set s now a = Some (a', o) -> In (Sent p) o ->
  lookup (sets s0) x = Some a -> set_ok cfg x a -> sent_from s0 p.
Proof.
  unfold advertise_set. intros s0 s now x a a' o p H IN L OK.
  destruct (set_timeout s now a) as [a1 o1] eqn:E1. pose proof (set_timeout_fine _ _ _ _ _ E1) as F1.
  assert (~ In (Sent p) o1) as N1.
  { clear - E1. unfold set_timeout in E1. destruct (timeout a); [|injection E1 as <- <-; tauto].
    destruct (_ && _); injection E1 as <- <-; [|tauto]. intros I. apply in_app_or in I as [I|I].
    - destruct (_ && _ && _ && _) in I; [destruct I as [I|[]]; discriminate|].
      destruct (_ && _ && _ && _) in I; [destruct I as [I|[]]; discriminate|contradiction].
    - destruct (le_event_unmasked s 18); [destruct I as [I|[]]; discriminate|contradiction]. }
  destruct (set_timeout_frame _ _ _ _ _ E1) as (e1 & -> & EN1). clear F1 E1.
  destruct (set_limit s _) as [a2 o2] eqn:E2.
  assert (~ In (Sent p) o2) as N2.
  { clear - E2. unfold set_limit in E2. destruct (_ && _ && _); injection E2 as <- <-; [|tauto].
    destruct (le_event_unmasked s 18); [intros [I|[]]; discriminate|tauto]. }
  destruct (set_limit_frame _ _ _ _ E2) as (e2 & -> & EN2). clear E2.
  cbn [LeTypes.with_enabled] in *. le_simpl_all.
  destruct (set_advertise now _) as [[a3 o3]|] eqn:E3; [|discriminate].
  destruct (set_periodic now a3) as [a4 o4] eqn:E4. injection H as <- <-.
  apply in_app_or in IN as [I|IN]; [contradiction|]. apply in_app_or in IN as [I|IN]; [contradiction|].
  assert (adv_address a3 = adv_address a /\ sid a3 = sid a /\ periodic_interval a3 = periodic_interval a
          /\ periodic_data a3 = periodic_data a /\ periodic_latch a3 = periodic_latch a
          /\ (In (Sent p) o3 -> sent_from s0 p)) as (A1 & A2 & A3 & A4 & A5 & A6).
  { unfold set_advertise in E3. le_simpl_all. destruct (_ && _) eqn:B.
    2:{ injection E3 as <- <-. repeat (split; [reflexivity|]). contradiction. }
    apply andb_true_iff in B as [B _]. specialize (EN2 B). specialize (EN1 EN2).
    destruct (legacy_pdus (props a)) eqn:LP.
    - destruct (set_legacy_pdu (props a)); [|discriminate]. injection E3 as <- <-. repeat (split; [reflexivity|]).
      intros [I|[]]. injection I as <-. cbn [sent_from]. right. exists x, a. auto.
    - injection E3 as <- <-. repeat (split; [reflexivity|]).
      intros [I|[]]. injection I as <-. cbn [sent_from]. exists x, a. repeat (split; auto). }
  apply in_app_or in IN as [I|IN]; [exact (A6 I)|].
  unfold set_periodic in E4. destruct (_ && _) eqn:B in E4; injection E4 as <- <-; [|contradiction].
  apply andb_true_iff in B as [B _]. rewrite A5 in B. destruct IN as [I|[]]. injection I as <-.
  cbn [sent_from]. exists x, a. rewrite A1, A2, A3, A4. repeat (split; auto). exact (ok_latch _ _ _ OK B).
Qed.

Lemma advertise_sets_send : forall s0 s now m m' o p, advertise_sets s now m = Some (m', o) -> In (Sent p) o ->
  (forall x a, In (x, a) m -> lookup (sets s0) x = Some a /\ set_ok cfg x a) -> sent_from s0 p.
Proof.
  intros s0 s now. induction m as [|[k a] m IH]; cbn [advertise_sets]; intros m' o p H IN OK.
  - injection H as <- <-. contradiction.
  - destruct (advertise_set s now a) as [[a1 o1]|] eqn:E; [|discriminate].
    destruct (advertise_sets s now m) as [[m1 o2]|] eqn:E2; [|discriminate]. injection H as <- <-.
    apply in_app_or in IN as [I|I].
    + destruct (OK k a (or_introl eq_refl)) as [L O]. exact (advertise_set_sends _ _ _ _ _ _ _ _ E I L O).
    + apply (IH _ _ _ eq_refl I). intros x b J. apply OK. now right.
Qed.

Lemma tick_sends : forall h s now s' st out p, history h s -> step now s Tick = Ok s' st out -> In (Sent p) out -> sent_from s p.
Proof.
  intros h s now s' st out p HI H IN. cbn [LeHost.step] in H. unfold tick, le_advertising in H.
  destruct (legacy_timeout now s) as [s1 o1] eqn:E1. destruct (legacy_advertise now s1) as [s2 o2] eqn:E2.
  destruct (advertise_sets s2 now (sets s2)) as [[m o3]|] eqn:E3; [|discriminate].
  destruct (le_scanning now _) as [s4 o4] eqn:E4. injection H as <- <- <-.
  assert (exists e, s1 = with_legacy (with_l_enabled e (legacy s)) s /\ (e = true -> l_enabled (legacy s) = true) /\ ~ In (Sent p) o1) as (e & -> & EN & N1).
  { unfold legacy_timeout in E1. destruct (l_timeout _); [destruct (_ && _)|]; injection E1 as <- <-.
    - exists false. split; [reflexivity|]. split; [discriminate|]. destruct (le_event_unmasked s 1); [intros [I|[]]; discriminate|tauto].
    - exists (l_enabled (legacy s)). split; [destruct s as [? ? ? ? []]; reflexivity|tauto].
    - exists (l_enabled (legacy s)). split; [destruct s as [? ? ? ? []]; reflexivity|tauto]. }
  assert (sets s2 = sets s /\ (In (Sent p) o2 -> sent_from s p)) as [S2 F2].
  { unfold legacy_advertise in E2. le_simpl_all. destruct (_ && _) eqn:B.
    - apply andb_true_iff in B as [B _]. specialize (EN B).
      destruct (legacy_pdu_of (l_type (legacy s))) as [t at_] eqn:PD. injection E2 as <- <-. split; [reflexivity|].
      intros [I|[]]. injection I as <-. cbn [sent_from]. left. split; [exact EN|]. split; [reflexivity|].
      destruct (l_type (legacy s)); injection PD as <- <-; reflexivity.
    - injection E2 as <- <-. split; [reflexivity|contradiction]. }
  apply in_app_or in IN as [IN|I].
  - apply in_app_or in IN as [I|IN]; [contradiction|]. apply in_app_or in IN as [I|I]; [exact (F2 I)|].
    apply (advertise_sets_send s _ _ _ _ _ _ E3 I). rewrite S2. intros x a J. split.
    + apply in_lookup_nodup; [exact (sets_nodup _ _ _ _ _ HI)|exact J].
    + exact (sets_all_ok _ _ HI _ _ J).
  - exfalso. unfold le_scanning in E4. destruct (negb _) in E4; [injection E4 as <- <-; contradiction|].
    destruct (_ && _) in E4; injection E4 as <- <-; [|contradiction].
    destruct (le_event_unmasked _ _); [destruct I as [I|[]]; discriminate|contradiction].
Qed.

Lemma step_sends : forall h s now o s' st out p, history h s -> step now s o = Ok s' st out -> In (Sent p) out -> sent_from s p.
Proof.
  intros h s now o s' st out p HI H IN.
  assert (may_send o p = true) as M.
  { pose proof (step_fine _ _ _ _ _ _ _ _ _ H) as F. rewrite Forall_forall in F. exact (F _ IN). }
  destruct o as [c|q|]; [destruct c; try discriminate; destruct p; try discriminate; exact I| |].
  - destruct q; try discriminate; destruct p; try discriminate; try exact I.
    cbn [LeHost.step receive] in H. unfold of_pair, receive_scan in H.
    destruct (resolve aes scanner s) as [s1 r] eqn:R. destruct (resolve_frame _ _ _ _ _ R) as (l & -> & _). ok H.
    apply in_app_or in IN as [I|I].
    + unfold legacy_scan_request in I. le_simpl_all. destruct (_ && _ && _ && _) eqn:B; [|contradiction]. destruct I as [I|[]]. injection I as <- <- <-.
      repeat match goal with X : _ && _ = true |- _ => apply andb_true_iff in X as [X ?] end.
      apply awt_eqb_eq in H0. subst. left. auto.
    + apply in_flat_map in I as ([x a] & I1 & I2). cbn [snd] in I2. le_simpl_all. unfold set_scan_request_pdu in I2.
      destruct (_ && _ && _ && _ && _) eqn:B; [|contradiction]. destruct I2 as [I2|[]]. injection I2 as <- <- <-.
      repeat match goal with X : _ && _ = true |- _ => apply andb_true_iff in X as [X ?] end.
      match goal with X : awt_eqb _ _ = true |- _ => apply awt_eqb_eq in X; subst end.
      right. exists x, a. split; [apply in_lookup_nodup; [exact (sets_nodup _ _ _ _ _ HI)|exact I1]|auto].
  - exact (tick_sends _ _ _ _ _ _ _ HI H IN).
Qed.

Lemma sent_stored : forall h s now o s' st out p, history h s -> step now s o = Ok s' st out -> In (Sent p) out ->
  carries_stored h s p.
Proof.
  intros h s now o s' st out p HI H IN. pose proof (step_sends _ _ _ _ _ _ _ _ HI H IN) as F.
  assert (forall k x a, lookup (sets s) x = Some a -> stored_data k x h = Some (data_of k a)) as ST.
  { intros k x a L. rewrite (stored_history _ _ _ _ _ HI), L. reflexivity. }
  destruct (legacy_stored_history _ _ _ _ _ HI) as [L1 L2].
  destruct p; cbn [sent_from carries_stored] in *; try exact I.
  - destruct F as [(A & B & C)|(x & a & A & B & C & D & E)].
    + left. split; [exact A|]. split; [exact B|]. rewrite C, L1. now destruct (l_type (legacy s)).
    + right. exists x, a. subst. rewrite (ST _ _ _ A). auto.
  - destruct F as (x & a & A & B & C & D & E & G). exists x, a. subst. rewrite (ST _ _ _ A). auto 8.
  - destruct F as (x & a & A & B & C & D & E & G). exists x, a. subst. rewrite (ST _ _ _ A). auto 8.
  - destruct F as [(A & B & C & D)|(x & a & A & B & C & D & E)].
    + left. split; [exact A|]. split; [exact C|]. now rewrite D.
    + right. exists x, a. subst. rewrite (ST _ _ _ A). auto.
Qed.

Lemma stored_sizes : forall h s, history h s -> forall k x d, stored_data k x h = Some d -> lenN d <= cfg_max_data cfg.
Proof.
  intros h s H k x d E. rewrite (stored_history _ _ _ _ _ H) in E. destruct (lookup (sets s) x) as [a|] eqn:L; [|discriminate].
  injection E as <-. pose proof (sets_ok _ _ _ _ _ H _ _ L) as [].
  destruct k; assumption.
Qed.

(** * Ready to be sent *)

Lemma enabled_ready : forall h s x a, history h s -> lookup (sets s) x = Some a -> enabled a = true -> data_ready a.
Proof.
  intros h s x a H L EN. pose proof (sets_ok _ _ _ _ _ H _ _ L) as OK.
  destruct (ok_complete _ _ _ OK EN) as [C1 C2]. split; [exact C1|]. split; [exact C2|]. split.
  - destruct (legacy_pdus (props a)) eqn:LP; [|exact (ok_fits _ _ _ OK EN LP)].
    destruct (ok_legacy_size _ _ _ OK LP) as [S _]. unfold air_limit. rewrite LP.
    destruct (directed (props a)) eqn:D; [|exact S].
    rewrite (ok_no_data _ _ _ OK); [rewrite lenN_nil; apply N.le_0_l|]. unfold can_have_data. now rewrite LP, D.
  - unfold response_limit. destruct (scannable (props a)) eqn:SC.
    + destruct (legacy_pdus (props a)) eqn:LP; [exact (proj2 (ok_legacy_size _ _ _ OK LP))|exact (ok_scan_1650 _ _ _ OK)].
    + rewrite (ok_no_scan _ _ _ OK SC). rewrite lenN_nil; apply N.le_0_l.
Qed.

Lemma periodic_is_ready : forall h s x a, history h s -> lookup (sets s) x = Some a -> periodic_on a = true -> periodic_ready a.
Proof.
  intros h s x a H L EN. pose proof (sets_ok _ _ _ _ _ H _ _ L) as OK.
  destruct (ok_periodic _ _ _ OK EN) as (C1 & C2 & C3 & C4 & C5 & C6). split; [exact C1|]. split; [exact (ok_pinterval _ _ _ OK C2)|].
  split; [exact (ok_periodic_1650 _ _ _ OK)|auto].
Qed.

(** * Enabling *)

Lemma enable_exact : forall h s now on l s' out, history h s ->
  step now s (Command (SetExtEnable on l)) = Ok s' (Some SUCCESS) out ->
  forall x, is_enabled s' x <->
    if on then In x (map en_handle l) \/ is_enabled s x
    else is_enabled s x /\ l <> [] /\ ~ In x (map en_handle l).
Proof.
  intros h s now on l s' out HI S x.
  assert (on = true -> l <> []) as NE.
  { intros -> ->. cbn [LeHost.step run_command] in S. unfold set_ext_enable in S. destruct (select_extended s); [|discriminate].
    cbn in S. discriminate. }
  assert (forall y, In y (map en_handle l) -> lookup (sets s) y <> None) as KN.
  { cbn [LeHost.step run_command] in S. unfold set_ext_enable in S. unfold select_extended in S. destruct (legacy_used s); [discriminate|].
    destruct (check_handles _ _ _) eqn:CH; try discriminate.
    - apply check_handles_ok in CH as [_ CH]. intros y IN. apply in_map_iff in IN as (e & <- & IN).
      destruct (CH e IN) as [HA _]. le_simpl_all. intros LN. rewrite has_lookup, LN in HA. discriminate.
    - injection S as _ E. destruct st; try discriminate. exfalso.
      clear - CH. revert CH. generalize (@nil N). induction l as [|e l IH]; cbn [check_handles]; intros u H; [discriminate|].
      destruct (255 <=? _); [discriminate|]. destruct (mem _ _); [discriminate|]. destruct (negb _); [discriminate|]. exact (IH _ H). }
  pose proof (step_changes _ _ _ _ _ _ _ _ _ S (sets_nodup _ _ _ _ _ HI) x) as C.
  unfold is_enabled.
  remember (lookup (sets s) x) as b eqn:EB. remember (lookup (sets s') x) as b' eqn:EB'.
  remember (Command (SetExtEnable on l)) as o eqn:EO. remember (Some SUCCESS) as st eqn:ES.
  destruct C; try discriminate EO; try discriminate ES.
  - injection ES as ->. congruence.
  - injection EO as <- ->. split.
    + intros _. left. apply in_map_iff. eauto.
    + intros _. eexists. split; [reflexivity|]. reflexivity.
  - injection EO as <- ->. split; [intros (a' & [= <-] & E); discriminate|].
    intros (_ & N1 & N2). tauto.
  - subst o st. cbn [leaves] in H. apply andb_true_iff in H as [H1 H2]. apply negb_true_iff in H1, H2.
    apply is_empty_false in H2. rewrite <- not_true_iff_false, mem_spec in H1.
    destruct on; split; intros X; tauto.
  - injection EO as -> ->. subst l. destruct on.
    + now elim (NE eq_refl).
    + split; [intros (a & E & _); discriminate|intros ((a & E & _) & _); discriminate].
Qed.

Lemma enable_failed : forall h s now on l s' st out, history h s ->
  step now s (Command (SetExtEnable on l)) = Ok s' (Some st) out -> st <> SUCCESS ->
  forall x, match lookup (sets s) x with
            | None => lookup (sets s') x = None
            | Some a => exists b, lookup (sets s') x = Some b /\ same_but_addresses a b
                                  /\ (on = false \/ ~ In x (map en_handle l) -> b = a)
            end.
Proof.
  intros h s now on l s' st out HI S NS x.
  cbn [LeHost.step run_command] in S. unfold set_ext_enable, select_extended in S.
  assert (forall m, sets s' = m -> m = sets s -> match lookup (sets s) x with
            | None => lookup (sets s') x = None
            | Some a => exists b, lookup (sets s') x = Some b /\ same_but_addresses a b
                                  /\ (on = false \/ ~ In x (map en_handle l) -> b = a)
            end) as SAME.
  { intros m -> ->. destruct (lookup (sets s) x) as [a|]; [|reflexivity]. exists a. split; [reflexivity|]. split; [|reflexivity].
    unfold same_but_addresses. now destruct a. }
  destruct (legacy_used s); [injection S as <- <- <-; exact (SAME _ eq_refl eq_refl)|].
  destruct (check_handles _ _ _); try discriminate; [|injection S as <- <- <-; exact (SAME _ eq_refl eq_refl)].
  destruct (negb on && is_empty l); [injection S as _ <- _; congruence|].
  destruct (is_empty l); [injection S as <- <- <-; exact (SAME _ eq_refl eq_refl)|].
  destruct on; cbn [negb] in S; [|injection S as _ <- _; congruence].
  destruct (prepare_sets aes rng l _) as [s1 r] eqn:P. destruct r as [st'|]; [|injection S as _ <- _; congruence].
  injection S as <- <- <-. destruct (prepare_sets_sets _ _ _ _ _ _ P) as ([K O] & _ & _).
  specialize (O x). le_simpl_all. destruct (lookup (sets s) x) as [a|]; [|exact O].
  destruct O as (ad & t & E & A). exists (new_addresses ad t a). split; [exact E|]. split.
  - unfold same_but_addresses, new_addresses. now destruct a.
  - intros [D|N]; [discriminate|]. destruct (A N) as [-> ->]. apply new_addresses_same.
Qed.

(** * Removing *)

Lemma remove_enabled : forall s now x a, lookup (sets s) x = Some a -> enabled a = true ->
  step now s (Command (RemoveSet x)) = Ok s (Some COMMAND_DISALLOWED) [].
Proof. intros s now x a L E. cbn [LeHost.step run_command]. unfold remove_set. now rewrite L, E. Qed.

Lemma clear_enabled : forall s now x, is_enabled s x -> step now s (Command ClearSets) = Ok s (Some COMMAND_DISALLOWED) [].
Proof.
  intros s now x (a & L & E). cbn [LeHost.step run_command]. unfold clear_sets.
  assert (existsb (fun kv => enabled (snd kv)) (sets s) = true) as ->; [|reflexivity].
  apply existsb_exists. exists (x, a). split; [exact (lookup_pair _ _ _ L)|exact E].
Qed.

Lemma remove_disabled : forall h s now x a, history h s -> lookup (sets s) x = Some a -> enabled a = false ->
  exists s', step now s (Command (RemoveSet x)) = Ok s' (Some SUCCESS) []
    /\ forall y, lookup (sets s') y = if y =? x then None else lookup (sets s) y.
Proof.
  intros h s now x a H L E. cbn [LeHost.step run_command]. unfold remove_set. rewrite L, E. eexists. split; [reflexivity|].
  intros y. le_simpl. apply lookup_erase.
Qed.

Lemma remove_unknown : forall s now x, lookup (sets s) x = None ->
  step now s (Command (RemoveSet x)) = Ok s (Some UNKNOWN_ADVERTISING_ID) [].
Proof. intros s now x L. cbn [LeHost.step run_command]. unfold remove_set. now rewrite L. Qed.

Lemma clear_disabled : forall h s now, history h s -> (forall x, ~ is_enabled s x) ->
  exists s', step now s (Command ClearSets) = Ok s' (Some SUCCESS) [] /\ forall y, lookup (sets s') y = None.
Proof.
  intros h s now H N. cbn [LeHost.step run_command]. unfold clear_sets.
  destruct (existsb _ _) eqn:E.
  - apply existsb_exists in E as ([x a] & I & E). elim (N x). exists a. split; [|exact E].
    apply in_lookup_nodup; [exact (sets_nodup _ _ _ _ _ H)|exact I].
  - eexists. split; [reflexivity|]. reflexivity.
Qed.

End WithController.
