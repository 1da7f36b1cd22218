(** The end of advertising: proofs. *)
From Verif Require Import Prelude Address Rpa Table LeTypes LeAdvertise LeLists LeScan LeInitiate LeHost LeTac LeFrame LeStep LeSets LeOutputs LeHistory.
From Verif Require Import LeListsSpec LeListsProofs LeAdvertSpec LeAdvertProofs LeAdvertSends LeFilterSpec LeFilterMore LeTimeSpec.
Open Scope N_scope.

Section WithController.
Variable aes : list N -> list N -> list N.
Variable rng : N -> N.
Variable cfg : config.
Notation step := (step aes rng cfg).
Notation history := (history aes rng cfg).

(** * Durations *)

Lemma enable_nodup now s on l s' out : step now s (Command (SetExtEnable on l)) = Ok s' (Some SUCCESS) out -> NoDup (map en_handle l).
Proof.
  cbn [LeHost.step run_command]. unfold set_ext_enable. intros H.
  destruct (select_extended s) as [s1|]; [|discriminate].
  destruct (check_handles s1 [] l) eqn:C; try discriminate.
  - exact (proj1 (check_handles_ok _ _ _ C)).
  - exfalso. cbn in H. injection H as _ E _. subst. clear - C. revert C. generalize (@nil N) as used.
    induction l as [|e l IH]; cbn [check_handles]; intros used C; [discriminate|].
    destruct (255 <=? _); [discriminate|]. destruct (mem _ _); [discriminate|]. destruct (negb _); [discriminate|]. exact (IH _ C).
Qed.

Lemma find_handle l x e : NoDup (map en_handle l) -> In e l -> en_handle e = x -> find (fun d => en_handle d =? x) l = Some e.
Proof.
  induction l as [|d l IH]; cbn [map find]; intros ND I E; [destruct I|]. inversion ND as [|? ? N1 N2]; subst.
  destruct (N.eqb_spec (en_handle d) (en_handle e)) as [Q|Q].
  - destruct I as [->|I]; [reflexivity|]. exfalso. apply N1. rewrite Q. now apply in_map.
  - destruct I as [->|I]; [congruence|]. now apply IH.
Qed.
Lemma find_no_handle l x : ~ In x (map en_handle l) -> find (fun d => en_handle d =? x) l = None.
Proof.
  induction l as [|d l IH]; cbn [map find]; intros N; [reflexivity|]. destruct (N.eqb_spec (en_handle d) x) as [E|E]; [exfalso; apply N; now left|].
  apply IH. intros I. apply N. now right.
Qed.

Lemma leaves_enabled x now o st out h : leaves x o st = true -> enabled_by x (Entry now o st out :: h) = enabled_by x h.
Proof.
  intros L. cbn [enabled_by what status_of at_time]. destruct o as [c|p|]; try reflexivity.
  destruct c; try reflexivity; try discriminate L. destruct on; [|destruct st as [[]|]; reflexivity].
  destruct st as [[]|]; try reflexivity. cbn [leaves] in L. apply andb_true_iff in L as [L _]. apply negb_true_iff, mem_false in L.
  now rewrite find_no_handle.
Qed.

(** An enabled set was enabled by a command, whose limits it has *)
Lemma enabled_timed h s : history h s -> forall x a, lookup (sets s) x = Some a -> enabled a = true ->
  exists t d, enabled_by x h = Some (t, d) /\ timeout a = (if 0 <? en_duration d then Some (t + en_duration d * 10000) else None)
    /\ max_events a = en_max d.
Proof.
  induction 1 as [addr|h s now o s' st out H IH S]; intros x a' L EN; [discriminate|].
  pose proof (step_changes _ _ _ _ _ _ _ _ _ S (sets_nodup _ _ _ _ _ H) x) as C. rewrite L in C.
  remember (Some a') as r eqn:R. remember (lookup (sets s) x) as q eqn:Q. symmetry in Q.
  assert (IHx : forall a, q = Some a -> enabled a = true -> exists t d, enabled_by x h = Some (t, d)
    /\ timeout a = (if 0 <? en_duration d then Some (t + en_duration d * 10000) else None) /\ max_events a = en_max d)
    by (intros a0 E; rewrite E in Q; exact (IH x a0 Q)). clear IH L Q.
  destruct C; try discriminate R; try injection R as <-; try (rewrite leaves_enabled by assumption; exact (IHx _ R EN)).
  all: cbn [enabled_by what status_of at_time].
  all: try (exact (IHx a eq_refl EN)).
  - exfalso. unfold params_ok in H1. destruct H1 as [X _]. unfold apply_params in EN. le_simpl_in EN. congruence.
  - destruct st; try exact (IHx a eq_refl EN); now elim H0.
  - exists now, e. rewrite (find_handle _ _ e (enable_nodup _ _ _ _ _ _ S)) by assumption. repeat split; reflexivity.
  - discriminate EN.
  - discriminate EN.
  - destruct (advertise_set_frame _ _ _ _ _ H0) as (e & n & ne & np & -> & E). le_simpl_in EN. le_simpl. exact (IHx a eq_refl (E EN)).
Qed.

(** * Ticks *)

Lemma in_time s now a a' o : advertise_set s now a = Some (a', o) -> enabled a' = true ->
  enabled a = true /\ (forall t, timeout a = Some t -> now < t) /\ (max_events a <> 0 -> num_events a < max_events a).
Proof.
  unfold advertise_set. intros H EN. destruct (set_timeout s now a) as [a1 o1] eqn:E1. destruct (set_limit s a1) as [a2 o2] eqn:E2.
  destruct (set_advertise now a2) as [[a3 o3]|] eqn:E3; [|discriminate]. destruct (set_periodic now a3) as [a4 o4] eqn:E4. injection H as <- <-.
  assert (X3 : enabled a3 = true).
  { unfold set_periodic in E4. destruct (_ && _) in E4; injection E4 as <- <-; exact EN. }
  assert (X2 : enabled a2 = true).
  { unfold set_advertise in E3. destruct (_ && _) in E3; [|injection E3 as <- <-; exact X3]. 
    destruct (legacy_pdus _) in E3; [destruct (set_legacy_pdu _) in E3; [|discriminate]|]; injection E3 as <- <-; exact X3. }
  unfold set_limit in E2. destruct (enabled a1 && _ && _) eqn:L in E2; injection E2 as <- <-; [discriminate X2|].
  unfold set_timeout in E1. destruct (timeout a) as [t|] eqn:T.
  - destruct (enabled a && _) eqn:C in E1; injection E1 as <- <-; [discriminate X2|].
    rewrite X2 in *. cbn [andb] in *. split; [reflexivity|]. split; [intros u [= <-]; now apply N.leb_gt|].
    intros NZ. apply N.eqb_neq in NZ. rewrite NZ in L. cbn [negb andb] in L. now apply N.leb_gt.
  - injection E1 as <- <-. rewrite X2 in *. cbn [andb] in *. split; [reflexivity|]. split; [discriminate|].
    intros NZ. apply N.eqb_neq in NZ. rewrite NZ in L. cbn [negb andb] in L. now apply N.leb_gt.
Qed.

Theorem advertising_stops h s now st out x : history (Entry now Tick st out :: h) s -> is_enabled s x ->
  exists t d, enabled_by x h = Some (t, d) /\ (en_duration d <> 0 -> now < t + en_duration d * 10000).
Proof.
  intros H (a' & L & EN). inversion H as [|h0 s0 now0 o0 s0' st0 out0 H0 S]; subst.
  destruct (tick_sets _ _ _ _ _ _ _ _ S) as (_ & o & A). apply (lookup_advertise _ _ _ _ _ x) in A.
  destruct (lookup (sets s0) x) as [a|] eqn:L0; [|congruence]. destruct A as (b & o' & A & L'). rewrite L' in L. injection L as ->.
  destruct (in_time _ _ _ _ _ A EN) as (E & T & _). destruct (enabled_timed _ _ H0 x a L0 E) as (t & d & D & TM & _).
  exists t, d. split; [exact D|]. intros NZ. apply T. rewrite TM. apply N.neq_0_lt_0, N.ltb_lt in NZ. now rewrite NZ.
Qed.

Lemma advertise_in s now m m' o x a a' o' : advertise_sets s now m = Some (m', o) -> lookup m x = Some a -> advertise_set s now a = Some (a', o') ->
  incl o' o.
Proof.
  revert m' o. induction m as [|[k b] m IH]; cbn [advertise_sets lookup]; intros m' o H L A; [discriminate|].
  destruct (advertise_set s now b) as [[b1 q1]|] eqn:B; [|discriminate]. destruct (advertise_sets s now m) as [[m1 q2]|] eqn:M; [|discriminate].
  injection H as <- <-. destruct (k =? x).
  - injection L as ->. rewrite B in A. injection A as -> ->. apply incl_appl, incl_refl.
  - apply incl_appr. now apply (IH _ _ eq_refl).
Qed.

Lemma tick_parts now s s' st out : step now s Tick = Ok s' st out -> exists o1 o2 o3 o4, out = o1 ++ o2 ++ o3 ++ o4
  /\ advertise_sets s now (sets s) = Some (sets s', o3)
  /\ (forall p, ~ In (Sent p) o1) /\ (l_enabled (legacy s) = false -> o2 = []) /\ (forall p, ~ In (Sent p) o4).
Proof.
  intros H. cbn [LeHost.step] in H. unfold tick, le_advertising in H.
  assert (exists a o, legacy_timeout now s = (with_legacy a s, o) /\ (l_enabled (legacy s) = false -> l_enabled a = false) /\ forall p, ~ In (Sent p) o) as (a1 & o1 & E1 & F1 & G1).
  { unfold legacy_timeout. destruct (l_timeout _); [destruct (_ && _)|]; try (eexists _, _; split; [reflexivity|]; split; [reflexivity|]; destruct (le_event_unmasked _ _); intros p I; cbn in I; intuition congruence);
      exists (legacy s), []; (split; [destruct s; reflexivity|]); split; auto. }
  rewrite E1 in H.
  assert (exists a o, legacy_advertise now (with_legacy a1 s) = (with_legacy a s, o) /\ (l_enabled a1 = false -> o = [])) as (a2 & o2 & E2 & F2).
  { unfold legacy_advertise. le_simpl. destruct (l_enabled a1); cbn [andb]; [destruct (l_next _ <=? _); [destruct (legacy_pdu_of _)|]|]; eexists _, _; (split; [reflexivity|]); auto; discriminate. }
  rewrite E2 in H. change (sets (with_legacy a2 s)) with (sets s) in H.
  assert (forall m, advertise_sets (with_legacy a2 s) now m = advertise_sets s now m) as AE.
  { induction m as [|[k b] m IH]; cbn [advertise_sets]; [reflexivity|]. rewrite IH. reflexivity. }
  rewrite AE in H. destruct (advertise_sets s now (sets s)) as [[m o3]|] eqn:A; [|discriminate].
  destruct (le_scanning now _) as [s3 o4] eqn:S. pose proof (le_scanning_filter rng _ _ _ _ S) as (_ & _ & _ & _ & F4). apply le_scanning_frame in S as [sc ->].
  injection H as <- <- <-. exists o1, o2, o3, o4. rewrite !app_assoc. le_simpl. auto 10.
Qed.

(** A set which a tick disables was enabled for less time, or for so many events; the host is told *)
Theorem advertising_goes_on h s now s' st out x a : history h s -> step now s Tick = Ok s' st out ->
  lookup (sets s) x = Some a -> enabled a = true -> ~ is_enabled s' x ->
  exists t d n, enabled_by x h = Some (t, d)
    /\ ((en_duration d <> 0 /\ t + en_duration d * 10000 <= now) \/ (en_max d <> 0 /\ en_max d <= num_events a))
    /\ (unmasked s (EvSetTerminated ADVERTISING_TIMEOUT x 0 n) -> In (Notified (EvSetTerminated ADVERTISING_TIMEOUT x 0 n)) out)
    /\ (en_max d <> 0 -> n = num_events a).
Proof.
  intros H S L EN OFF. destruct (enabled_timed _ _ H x a L EN) as (t & d & D & TM & MX).
  pose proof (sets_ok _ _ _ _ _ H x a L) as OK. pose proof (ok_handle _ _ _ OK) as HX.
  destruct (tick_parts _ _ _ _ _ S) as (o1 & o2 & o3 & o4 & -> & A & _).
  pose proof (lookup_advertise _ _ _ _ _ x A) as Q. rewrite L in Q. destruct Q as (a' & o' & B & L').
  pose proof (advertise_in _ _ _ _ _ _ _ _ _ A L B) as IN.
  assert (EN' : enabled a' = false). { destruct (enabled a') eqn:X; [|reflexivity]. elim OFF. exists a'. auto. }
  unfold advertise_set in B. destruct (set_timeout s now a) as [a1 q1] eqn:E1. destruct (set_limit s a1) as [a2 q2] eqn:E2.
  destruct (set_advertise now a2) as [[a3 q3]|] eqn:E3; [|discriminate]. destruct (set_periodic now a3) as [a4 q4] eqn:E4. injection B as <- <-.
  assert (X3 : enabled a3 = false). { unfold set_periodic in E4. destruct (_ && _) in E4; injection E4 as <- <-; exact EN'. }
  assert (X2 : enabled a2 = false).
  { unfold set_advertise in E3. destruct (_ && _) in E3; [|injection E3 as <- <-; exact X3]. 
    destruct (legacy_pdus _) in E3; [destruct (set_legacy_pdu _) in E3; [|discriminate]|]; injection E3 as <- <-; exact X3. }
  unfold set_timeout in E1. rewrite TM, EN in E1. destruct (0 <? en_duration d) eqn:DU; cbn [andb] in E1.
  - destruct (_ <=? now) eqn:C in E1; injection E1 as <- <-.
    + exists t, d, (if max_events a =? 0 then 0 else num_events a). split; [exact D|]. apply N.ltb_lt in DU. apply N.leb_le in C.
      split; [left; split; [lia|exact C]|]. split.
      * intros U. apply in_app_iff; right. apply in_app_iff; right. apply in_app_iff; left. apply IN. apply in_app_iff; left. apply in_app_iff; right.
        unfold unmasked in U. cbn [subevent] in U. rewrite U, HX. now left.
      * rewrite MX. intros NZ. apply N.eqb_neq in NZ. now rewrite NZ.
    + unfold set_limit in E2. rewrite EN in E2. cbn [andb] in E2. destruct (_ && _) eqn:LM in E2; injection E2 as <- <-; [|congruence].
      apply andb_true_iff in LM as [L1 L2]. apply negb_true_iff, N.eqb_neq in L1. apply N.leb_le in L2. rewrite MX in L1, L2.
      exists t, d, (num_events a). split; [exact D|]. split; [right; auto|]. split; [|auto].
      intros U. apply in_app_iff; right. apply in_app_iff; right. apply in_app_iff; left. apply IN. apply in_app_iff; right. apply in_app_iff; left.
      unfold unmasked in U. cbn [subevent] in U. rewrite U, HX. now left.
  - injection E1 as <- <-. unfold set_limit in E2. rewrite EN in E2. cbn [andb] in E2. destruct (_ && _) eqn:LM in E2; injection E2 as <- <-; [|congruence].
    apply andb_true_iff in LM as [L1 L2]. apply negb_true_iff, N.eqb_neq in L1. apply N.leb_le in L2. rewrite MX in L1, L2.
    exists t, d, (num_events a). split; [exact D|]. split; [right; auto|]. split; [|auto].
    intros U. apply in_app_iff; right. apply in_app_iff; right. apply in_app_iff; left. apply IN. apply in_app_iff; right. apply in_app_iff; left.
    unfold unmasked in U. cbn [subevent] in U. rewrite U, HX. now left.
Qed.
End WithController.
