(** The filter policies of the LE controller: the advertiser. Proofs. *)
From Verif Require Import Prelude Address Rpa Table LeTypes LeAdvertise LeLists LeScan LeInitiate LeHost LeTac LeFrame LeStep LeSets LeOutputs LeHistory.
From Verif Require Import LeListsSpec LeListsProofs LeAdvertSpec LeAdvertProofs LeFilterSpec LeFilter.
Open Scope N_scope.

Section WithController.
Variable aes : list N -> list N -> list N.
Variable rng : N -> N.
Variable cfg : config.
Notation step := (step aes rng cfg).
Notation history := (history aes rng cfg).
Notation who := (who aes).

(** * The parameters in force *)

Definition set_has (e : ext_params) (a : adv_set) : Prop :=
  props a = e_props e /\ policy a = e_policy e /\ peer a = e_peer e /\ peer_kind a = e_peer_kind e.
Definition given_has (g : option ext_params) (o : option adv_set) : Prop :=
  match g, o with Some e, Some a => set_has e a | None, None => True | _, _ => False end.

Lemma leaves_given x now o st out h : leaves x o st = true -> set_given x (Entry now o st out :: h) = set_given x h.
Proof.
  intros L. cbn [set_given what status_of].
  destruct o as [c|p|]; [|reflexivity|reflexivity]. destruct st as [st|]; [|destruct c; reflexivity || discriminate].
  destruct c; try discriminate; cbn [leaves] in L; try reflexivity;
    destruct st; try reflexivity; try discriminate; apply negb_true_iff in L; rewrite ?L; reflexivity.
Qed.
Lemma set_given_history h s : history h s -> forall x, given_has (set_given x h) (lookup (sets s) x).
Proof.
  intros H x. induction H as [addr|h s now o s' st out H IH S]; [exact I|].
  pose proof (step_changes _ _ _ _ _ _ _ _ _ S (sets_nodup _ _ _ _ _ H) x) as C.
  destruct C; try (rewrite leaves_given by assumption; exact IH); cbn [set_given what status_of]; try exact I; try exact IH;
    rewrite ?N.eqb_refl; try exact I; try (destruct (set_given x h); exact IH).
  - subst a. destruct o; repeat split.
  - destruct (advertise_set_frame _ _ _ _ _ H0) as (? & ? & ? & ? & -> & _). destruct (set_given x h); exact IH.
Qed.

Definition legacy_is (s : le) : adv_type * address_with_type * adv_policy :=
  (l_type (legacy s), peer_device_address (l_peer (legacy s)) (l_peer_kind (legacy s)), l_policy (legacy s)).
Lemma legacy_given_history h s : history h s -> legacy_given h = legacy_is s.
Proof.
  intros H. induction H as [addr|h s now o s' st out H IH S]; [reflexivity|].
  assert (SAME : touches o PLegacy = false \/ (forall a b c d e f g i, o <> Command (SetAdvParameters a b c d e f g i)) /\ o <> Command Reset ->
    legacy_given (Entry now o st out :: h) = legacy_given h).
  { intros [T|[N1 N2]]; cbn [legacy_given what status_of]; destruct o as [c|p|]; try reflexivity; destruct c; try discriminate; try reflexivity;
      try (now elim N2); now elim (N1 _ _ _ _ _ _ _ _ eq_refl). }
  destruct (touches o PLegacy) eqn:T.
  2:{ pose proof (step_same _ _ _ _ _ _ _ _ _ S PLegacy T) as E. cbn [same] in E. unfold legacy_is. rewrite E, SAME by now left. exact IH. }
  destruct o as [c|p|].
  - destruct c; try discriminate.
    + cbn [LeHost.step run_command] in S. unfold reset, loud in S. ok S. reflexivity.
    + cbn [LeHost.step run_command] in S. unfold quiet, set_adv_parameters, select_legacy in S.
      destruct (extended_used s) in S; [ok S; exact IH|]. cbv zeta in S. le_simpl_in S.
      do 4 (destruct (_ : bool) in S at 1; [ok S; exact IH|]). ok S. unfold legacy_is. cbn [legacy_given what status_of]. le_simpl. reflexivity.
    + rewrite SAME by (right; split; [intros|]; discriminate). cbn [LeHost.step] in S. unfold_step S. destruct (extended_used s); ok S; exact IH.
    + rewrite SAME by (right; split; [intros|]; discriminate). cbn [LeHost.step] in S. unfold_step S. destruct (extended_used s); ok S; exact IH.
    + rewrite SAME by (right; split; [intros|]; discriminate). cbn [LeHost.step] in S. unfold_step S.
      rewrite IH. unfold legacy_is. crack S; try discriminate; ok S; frames; le_simpl; le_simpl_all; auto.
  - rewrite SAME by (right; split; [intros|]; discriminate). rewrite IH. unfold legacy_is.
    destruct p; try discriminate. cbn [LeHost.step receive] in S. unfold of_effect, receive_connect, legacy_connect_request in S.
    crack S; try discriminate; repeat match goal with E : inl _ = inl _ |- _ => injection E as <- | E : inr _ = inr _ |- _ => injection E as <- end.
    all: try discriminate.
    all: try ok S. all: repeat match goal with E : Next _ _ = Next _ _ |- _ => injection E as <- <- end.
    all: frames; le_simpl; le_simpl_all; auto.
  - rewrite SAME by (right; split; [intros|]; discriminate). rewrite IH. unfold legacy_is.
    destruct (tick_legacy _ _ _ _ _ _ _ _ S) as (e & n & -> & _). auto.
Qed.

(** * Scan requests *)

Lemma scannable_type t : legacy_scannable t = true <-> type_scannable t.
Proof. unfold type_scannable. destruct t; cbn; intuition congruence. Qed.
Lemma directed_type t : legacy_directed t = true <-> type_directed t.
Proof. unfold type_directed. destruct t; cbn; intuition congruence. Qed.
Lemma connectable_type t : legacy_connectable t = true <-> type_connectable t.
Proof. unfold type_connectable, type_directed. destruct t; cbn; intuition congruence. Qed.

Lemma scans_filter s pol i : negb (policy_filters_scans pol) || accept_contains s i = true <-> may_scan s pol i.
Proof.
  unfold may_scan. rewrite <- contains_listed. destruct pol; cbn [policy_filters_scans negb orb]; intuition congruence.
Qed.
Lemma connects_filter s pol i : negb (policy_filters_connects pol) || accept_contains s i = true <-> may_connect s pol i.
Proof.
  unfold may_connect. rewrite <- contains_listed. destruct pol; cbn [policy_filters_connects negb orb]; intuition congruence.
Qed.

Lemma given_set h s x a : history h s -> lookup (sets s) x = Some a -> exists e, set_given x h = Some e /\ set_has e a.
Proof.
  intros H L. pose proof (set_given_history _ _ H x) as G. rewrite L in G. destruct (set_given x h); [|destruct G]. eauto.
Qed.
Lemma set_given_in h s x e : history h s -> set_given x h = Some e -> exists a, lookup (sets s) x = Some a /\ set_has e a.
Proof.
  intros H L. pose proof (set_given_history _ _ H x) as G. rewrite L in G. destruct (lookup (sets s) x); [|destruct G]. eauto.
Qed.

Theorem scan_response_allowed h s now scanner adv s' st out : history h s ->
  step now s (Receive (AirScan scanner adv)) = Ok s' st out ->
  exists i, known_as aes s scanner i /\
    forall p, In p out <-> exists data, p = Sent (AirScanResponse adv (awt_addr scanner) data) /\ scan_allowed h s adv i data.
Proof.
  intros H S. cbn [LeHost.step receive] in S. unfold of_pair, receive_scan in S.
  destruct (resolve aes scanner s) as [s1 r] eqn:R. pose proof (resolve_who _ _ _ _ _ R) as W. apply resolve_frame in R as (l & -> & _). ok S.
  exists r. split; [rewrite W; apply who_known|]. intros p. rewrite in_app_iff.
  pose proof (legacy_given_history _ _ H) as G. unfold legacy_is in G.
  split.
  - intros [I|I].
    + unfold legacy_scan_request in I. le_simpl_in I. destruct (_ && _) eqn:E in I; [|destruct I]. destruct I as [<-|[]].
      apply andb_true_iff in E as [E E4]. apply andb_true_iff in E as [E E3]. apply andb_true_iff in E as [E1 E2].
      eexists. split; [reflexivity|]. destruct (legacy_stored_history _ _ _ _ _ H) as [_ ->].
      refine (legacy_scan_allowed h s adv r _ _ _ E1 _ G _ _).
      * apply awt_eqb_eq in E3. auto.
      * now apply scannable_type.
      * now apply scans_filter.
    + apply in_flat_map in I as ((x & a) & IN & I). cbn [snd] in I. le_simpl_in IN.
      unfold set_scan_request_pdu in I. destruct (_ && _ && _) eqn:E in I; [|destruct I]. destruct I as [<-|[]].
      apply andb_true_iff in E as [E E5]. apply andb_true_iff in E as [E E4]. apply andb_true_iff in E as [E E3]. apply andb_true_iff in E as [E1 E2].
      assert (L : lookup (sets s) x = Some a) by (apply in_lookup_nodup; [apply (sets_nodup _ _ _ _ _ H)|exact IN]).
      destruct (given_set _ _ _ _ H L) as (e & Ge & P1 & P2 & P3 & P4).
      eexists. split; [reflexivity|]. refine (set_scan_allowed h s adv r x a e _ L E1 _ Ge _ _ _ _).
      * apply awt_eqb_eq in E3. auto.
      * now rewrite <- P1.
      * rewrite <- P2. now apply scans_filter.
      * rewrite <- P1. intros D. rewrite D in E5. apply negb_true_iff, andb_false_iff in E5 as [E5|E5]; [discriminate|]. apply negb_false_iff in E5. now apply awt_eqb_eq in E5.
      * rewrite (stored_history _ _ _ _ _ H), L. reflexivity.
  - intros (data & -> & A). destruct A as [t q pol E1 E3 G' E2 E4|x a e d L E1 E3 Ge E2 E4 E5 SD].
    + left. unfold legacy_scan_request. le_simpl. rewrite E1, E3. destruct (legacy_stored_history _ _ _ _ _ H) as [_ <-].
      assert (EE : l_type (legacy s) = t /\ l_policy (legacy s) = pol) by (split; congruence). destruct EE as [-> ->].
      apply scannable_type in E2. rewrite E2. apply scans_filter in E4. change (accept_contains (with_resolving l s) r) with (accept_contains s r). rewrite E4.
      assert (awt_eqb adv adv = true) as -> by now apply awt_eqb_eq. left. reflexivity.
    + right. apply in_flat_map. exists (x, a). split; [le_simpl; now apply lookup_pair|]. cbn [snd]. unfold set_scan_request_pdu.
      destruct (given_set _ _ _ _ H L) as (e' & Ge' & P1 & P2 & P3 & P4). assert (e' = e) by congruence. subst e'.
      rewrite (stored_history _ _ _ _ _ H), L in SD. injection SD as <-.
      rewrite P1, P2, E1, E2, E3. apply scans_filter in E4. change (accept_contains (with_resolving l s) r) with (accept_contains s r). rewrite E4.
      assert (awt_eqb adv adv = true) as -> by now apply awt_eqb_eq. cbn [andb].
      destruct (directed (e_props e)); cbn [andb]; [|left; reflexivity]. rewrite (E5 eq_refl).
      assert (awt_eqb r r = true) as -> by now apply awt_eqb_eq. left. reflexivity.
Qed.
Theorem scan_response_only now s o s' st out adv dst data : step now s o = Ok s' st out -> In (Sent (AirScanResponse adv dst data)) out ->
  exists scanner, o = Receive (AirScan scanner adv).
Proof.
  intros S I. pose proof (step_fine _ _ _ _ _ _ _ _ _ S) as F. rewrite Forall_forall in F. apply F in I as M. cbn [fine] in M.
  destruct o as [[]|p|]; try discriminate M. destruct p; try discriminate M. exists scanner. f_equal. f_equal.
  cbn [LeHost.step receive] in S. unfold of_pair, receive_scan in S. destruct (resolve aes scanner s) as [s1 r]. ok S.
  apply in_app_iff in I as [I|I].
  - unfold legacy_scan_request in I. destruct (_ && _) in I; [|destruct I]. destruct I as [I|[]]. now injection I.
  - apply in_flat_map in I as (kv & _ & I). unfold set_scan_request_pdu in I. destruct (_ && _ && _) in I; [|destruct I]. destruct I as [I|[]]. now injection I.
Qed.

(** * Connection requests *)

Lemma handle_connection_sends peer resolved own central i lat sup cs s s' h o :
  handle_connection peer resolved own central i lat sup cs s = Some (s', h, o) -> forall p, ~ In (Sent p) o.
Proof.
  unfold handle_connection. intros H p I.
  destruct (Handles.get_unused_handle _ _ _ _) as [[h' last]|]; [|discriminate]. injection H as _ _ <-.
  apply in_app_iff in I as [I|I]; repeat match type of I with In _ (if ?b then _ else _) => destruct b end; cbn in I; intuition discriminate.
Qed.

Lemma directed_or (d : bool) (A B : bool) : (if d then A else B) = true <-> (d = true -> A = true) /\ (d = false -> B = true).
Proof. destruct d; intuition. Qed.

Definition set_allows (s : le) (adv i : address_with_type) (a : adv_set) : Prop :=
  enabled a = true /\ connectable (props a) = true /\ adv_address a = adv
  /\ (directed (props a) = true -> i = peer_device_address (peer a) (peer_kind a))
  /\ (directed (props a) = false -> may_connect s (policy a) i).

Lemma sets_connect_answers m : forall i adv x y z s s' o r, sets_connect_request aes m i adv x y z s = Next s' o ->
  r = who (resolving_on s) (resolving s) i ->
  ((exists h a, In (h, a) m /\ set_allows s adv r a) /\ answers i adv x y z o)
  \/ ((forall h a, In (h, a) m -> ~ set_allows s adv r a) /\ o = []).
Proof.
  induction m as [|[h a] m IH]; cbn [sets_connect_request]; intros i adv x y z s s' o r H W.
  - injection H as <- <-. right. split; [intros ? ? []|reflexivity].
  - destruct (set_connect_request aes h a i adv x y z s) as [e|e] eqn:E.
    + subst e. unfold set_connect_request in E.
      destruct (enabled a && connectable (props a) && awt_eqb (adv_address a) adv) eqn:B; cbn [negb] in E; [|discriminate].
      destruct (resolve aes i s) as [s1 r'] eqn:R. pose proof (resolve_who _ _ _ _ _ R) as W'. rewrite <- W in W'. subst r'.
      apply resolve_frame in R as (l & -> & _).
      match type of E with (if negb ?b then _ else _) = _ => destruct b eqn:OKb end; cbn [negb] in E; [|discriminate].
      injection E as E. destruct (handle_connection _ _ _ _ _ _ _ _ _) as [[[s2 c] o2]|] eqn:HC; [|discriminate].
      pose proof (handle_connection_sends _ _ _ _ _ _ _ _ _ _ _ _ HC) as NS. injection E as <- <-. left. split.
      * exists h, a. split; [now left|]. apply andb_true_iff in B as [B B3]. apply andb_true_iff in B as [B1 B2].
        apply awt_eqb_eq in B3. apply directed_or in OKb as [O1 O2]. repeat split; auto.
        -- intros D. apply O1 in D. now apply awt_eqb_eq in D.
        -- intros D. apply O2 in D. now apply connects_filter.
      * split; [apply in_app_iff; right; now left|]. intros p I. apply in_app_iff in I as [I|I]; [now elim (NS p)|].
        destruct I as [I|I]; [congruence|]. repeat match type of I with In _ (if ?b then _ else _) => destruct b end; cbn in I; intuition discriminate.
    + assert (F : exists l, e = with_resolving l s /\ map ident l = map ident (resolving s)) by exact (set_connect_request_frame _ _ _ _ _ _ _ _ _ _ E).
      destruct F as (l & -> & F).
      assert (NA : ~ set_allows s adv r a).
      { intros (A1 & A2 & A3 & A4 & A5). unfold set_connect_request in E. rewrite A1, A2, A3 in E.
        assert (awt_eqb adv adv = true) as X by now apply awt_eqb_eq. rewrite X in E. cbn [andb negb] in E.
        destruct (resolve aes i s) as [s1 r'] eqn:R. pose proof (resolve_who _ _ _ _ _ R) as W'. rewrite <- W in W'. subst r'.
        apply resolve_frame in R as (l' & -> & _).
        match type of E with (if negb ?b then _ else _) = _ => assert (b = true) as Y end; [|rewrite Y in E; discriminate].
        apply directed_or. split; intros D; [apply awt_eqb_eq; auto|]. apply connects_filter. exact (A5 D). }
      specialize (IH _ _ _ _ _ _ _ _ r H). rewrite W in IH. specialize (IH ltac:(symmetry; apply who_ident; exact F)).
      rewrite <- W in IH. destruct IH as [((h' & a' & I & A) & B)|(N & ->)].
      * left. split; [|exact B]. exists h', a'. split; [now right|exact A].
      * right. split; [|reflexivity]. intros h' a' [X|I]; [injection X as <- <-; exact NA|exact (N h' a' I)].
Qed.

Theorem connect_request_allowed h s now initiator adv x y z s' st out : history h s ->
  step now s (Receive (AirConnect initiator adv x y z)) = Ok s' st out ->
  exists i, known_as aes s initiator i /\
    ((connect_allowed h s adv i /\ answers initiator adv x y z out) \/ (~ connect_allowed h s adv i /\ out = [])).
Proof.
  intros H S. exists (who (resolving_on s) (resolving s) initiator). split; [apply who_known|].
  set (r := who _ _ initiator) in *. cbn [LeHost.step receive] in S. unfold of_effect in S.
  destruct (receive_connect _ _ _ _ _ _ _) as [s1 o1| |] eqn:E; try discriminate. ok S.
  pose proof (legacy_given_history _ _ H) as G. unfold legacy_is in G.
  unfold receive_connect in E. destruct (legacy_connect_request _ _ _ _ _ _ _) as [e|e] eqn:L.
  - subst e. left. unfold legacy_connect_request in L.
    match type of L with (if negb ?b then _ else _) = _ => destruct b eqn:B end; cbn [negb] in L; [|discriminate].
    destruct (resolve aes initiator s) as [s2 r'] eqn:R. pose proof (resolve_who _ _ _ _ _ R) as W'. fold r in W'. subst r'.
    apply resolve_frame in R as (l & -> & _).
    match type of L with (if negb ?b then _ else _) = _ => destruct b eqn:OKb end; cbn [negb] in L; [|discriminate].
    injection L as L. destruct (handle_connection _ _ _ _ _ _ _ _ _) as [[[s3 c] o2]|] eqn:HC; [|discriminate].
    pose proof (handle_connection_sends _ _ _ _ _ _ _ _ _ _ _ _ HC) as NS. injection L as <- <-. split.
    + apply andb_true_iff in B as [B B3]. apply andb_true_iff in B as [B1 B2]. apply awt_eqb_eq in B3. apply directed_or in OKb as [O1 O2].
      refine (legacy_connect_allowed h s adv r _ _ _ B1 B3 G _ _ _).
      * now apply connectable_type.
      * intros D. apply directed_type in D. apply O1 in D. now apply awt_eqb_eq in D.
      * intros D. apply connects_filter. apply O2. destruct (legacy_directed _) eqn:X; [|reflexivity]. elim D. now apply directed_type.
    + split; [apply in_app_iff; right; now left|]. intros p I. apply in_app_iff in I as [I|[I|[]]]; [now elim (NS p)|congruence].
  - assert (F : (exists l, e = with_resolving l s /\ map ident l = map ident (resolving s)) /\
      forall t p pol, l_enabled (legacy s) = true -> l_address (legacy s) = adv -> legacy_given h = (t, p, pol) ->
       type_connectable t -> (type_directed t -> r = p) -> (~ type_directed t -> may_connect s pol r) -> False).
    { unfold legacy_connect_request in L.
      match type of L with (if negb ?b then _ else _) = _ => destruct b eqn:B end; cbn [negb] in L.
      - destruct (resolve aes initiator s) as [s2 r'] eqn:R. pose proof (resolve_who _ _ _ _ _ R) as W'. fold r in W'. subst r'.
        apply resolve_frame in R as (l & -> & F).
        match type of L with (if negb ?b then _ else _) = _ => destruct b eqn:OKb end; cbn [negb] in L; [discriminate|]. injection L as <-.
        split; [eauto|]. intros t p pol A1 A2 A3 A4 A5 A6. rewrite G in A3. injection A3 as <- <- <-.
        match type of OKb with ?b = false => assert (b = true) as Y end; [|congruence].
        apply directed_or. split; intros D; [apply awt_eqb_eq, A5; now apply directed_type|].
        apply connects_filter. apply A6. intros X. apply directed_type in X. congruence.
      - injection L as <-. split; [exists (resolving s); split; [destruct s|]; reflexivity|].
        intros t p pol A1 A2 A3 A4 A5 A6. rewrite G in A3. injection A3 as <- <- <-. apply connectable_type in A4. rewrite A1, A2, A4 in B.
        assert (awt_eqb adv adv = true) as X by now apply awt_eqb_eq. rewrite X in B. discriminate. }
    destruct F as [(l & -> & F) NL].
    destruct (sets_connect_answers _ _ _ _ _ _ _ _ _ r E ltac:(symmetry; apply who_ident; exact F)) as [((x' & a & IN & A) & B)|(N & ->)].
    + left. split; [|exact B]. le_simpl_in IN. destruct A as (A1 & A2 & A3 & A4 & A5).
      assert (LK : lookup (sets s) x' = Some a) by (apply in_lookup_nodup; [apply (sets_nodup _ _ _ _ _ H)|exact IN]).
      destruct (given_set _ _ _ _ H LK) as (e & Ge & P1 & P2 & P3 & P4). rewrite P1 in *. rewrite P2, P3, P4 in *.
      exact (set_connect_allowed h s adv r x' a e LK A1 A3 Ge A2 A4 A5).
    + right. split; [|reflexivity]. intros A. destruct A as [t p pol A1 A2 A3 A4 A5 A6|x' a e LK A1 A3 Ge A2 A4 A5].
      * exact (NL t p pol A1 A2 A3 A4 A5 A6).
      * apply (N x' a); [le_simpl; now apply lookup_pair|].
        destruct (given_set _ _ _ _ H LK) as (e' & Ge' & P1 & P2 & P3 & P4). assert (e' = e) by congruence. subst e'.
        unfold set_allows. rewrite P1, P2, P3, P4. repeat split; auto.
Qed.
Theorem connect_complete_only now s o s' st out i adv x y z : step now s o = Ok s' st out -> In (Sent (AirConnectComplete i adv x y z)) out ->
  o = Receive (AirConnect i adv x y z).
Proof.
  intros S I. pose proof (step_fine _ _ _ _ _ _ _ _ _ S) as F. rewrite Forall_forall in F. apply F in I as M. cbn [fine] in M.
  destruct o as [[]|p|]; try discriminate M. destruct p; try discriminate M. 
  cbn [LeHost.step receive] in S. unfold of_effect in S. destruct (receive_connect _ _ _ _ _ _ _) as [s1 o1| |] eqn:E; try discriminate. ok S.
  unfold receive_connect in E. destruct (legacy_connect_request _ _ _ _ _ _ _) as [e|e] eqn:L.
  - subst e. unfold legacy_connect_request in L. destruct (negb _) in L; [discriminate|].
    destruct (resolve aes initiator s) as [s2 r']. destruct (negb _) in L; [discriminate|]. injection L as L.
    destruct (handle_connection _ _ _ _ _ _ _ _ _) as [[[s3 c] o2]|] eqn:HC; [|discriminate].
    pose proof (handle_connection_sends _ _ _ _ _ _ _ _ _ _ _ _ HC) as NS. injection L as <- <-.
    apply in_app_iff in I as [I|[I|[]]]; [now elim (NS _ I)|congruence].
  - destruct (sets_connect_answers _ _ _ _ _ _ _ _ _ _ E eq_refl) as [(_ & _ & B)|(_ & ->)]; [|destruct I]. apply B in I. congruence.
Qed.
End WithController.
