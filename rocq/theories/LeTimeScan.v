(** The end of scanning, the duplicate filter and the fragments of reports: proofs. *)
From Verif Require Import Prelude Address Rpa Table LeTypes LeAdvertise LeLists LeScan LeInitiate LeHost LeTac LeFrame LeStep LeSets LeOutputs LeHistory.
From Verif Require Import LeListsSpec LeListsProofs LeAdvertSpec LeAdvertProofs LeAdvertSends LeFilterSpec LeFilter LeFilterMore LeFilterInv LeTimeSpec.
Open Scope N_scope.

(** The fields about time and duplicates *)
Definition timing (c : scanner) := (scan_enabled c, scan_dups c, (scan_timeout c, scan_period_timeout c), (scan_duration c, scan_period c)).

(** What the reception of [p] does to the scanner *)
Definition heard (p : air) (c c' : scanner) (out : list output) : Prop :=
  timing c' = timing c
  /\ ((scan_history c' = scan_history c /\ (scan_dups c = DUP_DISABLED \/ ~ has_report out))
      \/ (scan_history c' = scan_history c ++ [p] /\ ~ In p (scan_history c) /\ scan_dups c <> DUP_DISABLED)).

Lemma air_eqb_eq p q : air_eqb p q = true <-> p = q.
Proof. unfold air_eqb. destruct (air_eq_dec p q); intuition congruence. Qed.
Lemma seen_spec p l : existsb (air_eqb p) l = true <-> In p l.
Proof.
  rewrite existsb_exists. split.
  - intros (q & I & E). apply air_eqb_eq in E. now subst.
  - intros I. exists p. split; [exact I|]. now apply air_eqb_eq.
Qed.
Lemma seen_false p l : existsb (air_eqb p) l = false <-> ~ In p l.
Proof. rewrite <- seen_spec. destruct (existsb _ _); intuition congruence. Qed.

Lemma filter_duplicate_says p s s' b : filter_duplicate p s = (s', b) ->
  exists l, s' = with_scan (with_scan_history l (scan s)) s /\
    ((l = scan_history (scan s) /\ (b = true -> scan_dups (scan s) = DUP_DISABLED) /\ (b = false -> In p (scan_history (scan s)) /\ scan_dups (scan s) <> DUP_DISABLED))
     \/ (b = true /\ l = scan_history (scan s) ++ [p] /\ ~ In p (scan_history (scan s)) /\ scan_dups (scan s) <> DUP_DISABLED)).
Proof.
  unfold filter_duplicate. intros H.
  assert (s = with_scan (with_scan_history (scan_history (scan s)) (scan s)) s) as SAME
    by (destruct s as [? ? ? ? ? ? ? ? ? ? [] ? ? ? ? ? ? ? ? ?]; reflexivity).
  destruct (scan_dups (scan s)); [injection H as <- <-; exists (scan_history (scan s)); split; [exact SAME|left; repeat split; congruence]| |];
    (destruct (existsb _ _) eqn:E in H; injection H as <- <-;
     [apply seen_spec in E; exists (scan_history (scan s)); split; [exact SAME|left; repeat split; auto; congruence]
     |apply seen_false in E; eexists; split; [reflexivity|right; repeat split; auto; congruence]]).
Qed.

Lemma no_report_nil : ~ has_report [].
Proof. intros (e & [] & _). Qed.
Lemma no_report_app a b : ~ has_report a -> ~ has_report b -> ~ has_report (a ++ b).
Proof. intros A B (e & I & R). apply in_app_iff in I as [I|I]; [apply A|apply B]; exists e; auto. Qed.
Lemma no_report_none o : (forall e, ~ In (Notified e) o) -> ~ has_report o.
Proof. intros H (e & I & _). exact (H e I). Qed.

Section WithController.
Variable aes : list N -> list N -> list N.
Variable rng : N -> N.
Variable cfg : config.
Notation step := (step aes rng cfg).
Notation history := (history aes rng cfg).
Notation who := (who aes).

Lemma send_scan_silent now adv res b1 b2 b3 b4 x y s s' o :
  send_scan_request aes rng now adv res b1 b2 b3 b4 x y s = Some (s', o) -> forall e, ~ In (Notified e) o.
Proof.
  unfold send_scan_request. destruct (_ || _); [intros [= <- <-] e []|]. destruct (generate _ _ _ _ _) as [s1 r].
  destruct (scanning_address _ _); [|discriminate]. intros [= <- <-] e [I|[]]. discriminate I.
Qed.

Lemma heard_same p c out : ~ has_report out -> heard p c c out.
Proof. intros N. split; [reflexivity|]. left. auto. Qed.

Lemma scan_legacy_heard now adv tgt t data s s' o : scan_legacy_pdu aes rng now adv tgt t data s = Some (s', o) ->
  heard (AirLegacy adv tgt t data) (scan s) (scan s') o.
Proof.
  unfold scan_legacy_pdu. intros H. destruct (negb (scan_enabled _)); [injection H as <- <-; apply heard_same, no_report_nil|]. cbv zeta in H.
  destruct (resolve aes adv s) as [s1 r] eqn:R. apply resolve_frame in R as (l & -> & _).
  destruct (negb _) in H; [injection H as <- <-; le_simpl; apply heard_same, no_report_nil|].
  destruct (if (match t with PDU_DIRECT => true | _ => false end) then _ else _) as [only|] in H; [|injection H as <- <-; le_simpl; apply heard_same, no_report_nil].
  destruct (filter_duplicate _ _) as [s2 fresh] eqn:F in H. apply filter_duplicate_says in F as (k & -> & F). le_simpl_in F.
  destruct (send_scan_request _ _ _ _ _ _ _ _ _ _ _ _) as [[s3 o4]|] eqn:SR in H; [|discriminate].
  pose proof (send_scan_silent _ _ _ _ _ _ _ _ _ _ _ _ SR) as Q. apply send_scan_request_frame in SR as (pd & l2 & q & -> & _). injection H as <- <-.
  unfold heard, timing. le_simpl. split; [reflexivity|]. destruct F as [(-> & F1 & F2)|(-> & -> & F1 & F2)]; [|right; auto].
  left. split; [reflexivity|]. destruct fresh; [auto|right]. rewrite !andb_false_r. cbn [andb app]. now apply no_report_none.
Qed.

Lemma scan_extended_heard now adv tgt c sc d sid power prim sec pi data s s' o :
  scan_extended_pdu aes rng cfg now adv tgt c sc d sid power prim sec pi data s = Some (s', o) ->
  heard (AirExtended adv tgt c sc d sid power prim sec pi data) (scan s) (scan s') o.
Proof.
  unfold scan_extended_pdu. intros H.
  do 4 (destruct (_ : bool) in H at 1; [injection H as <- <-; apply heard_same, no_report_nil|]). cbv zeta in H.
  destruct (resolve aes adv s) as [s1 r] eqn:R. apply resolve_frame in R as (l & -> & _).
  destruct (negb _) in H; [injection H as <- <-; le_simpl; apply heard_same, no_report_nil|].
  destruct (if d then _ else _) as [only|] in H; [|injection H as <- <-; le_simpl; apply heard_same, no_report_nil].
  destruct (filter_duplicate _ _) as [s2 fresh] eqn:F in H. apply filter_duplicate_says in F as (k & -> & F). le_simpl_in F.
  destruct (send_scan_request _ _ _ _ _ _ _ _ _ _ _ _) as [[s3 o4]|] eqn:SR in H; [|discriminate].
  pose proof (send_scan_silent _ _ _ _ _ _ _ _ _ _ _ _ SR) as Q. apply send_scan_request_frame in SR as (pd & l2 & q & -> & _). injection H as <- <-.
  unfold heard, timing. le_simpl. split; [reflexivity|]. destruct F as [(-> & F1 & F2)|(-> & -> & F1 & F2)]; [|right; auto].
  left. split; [reflexivity|]. destruct fresh; [auto|right]. cbn [andb app]. now apply no_report_none.
Qed.

Lemma scan_response_heard adv dst data s s' o : receive_scan_response aes adv dst data s = (s', o) ->
  heard (AirScanResponse adv dst data) (scan s) (scan s') o.
Proof.
  unfold receive_scan_response. intros H. destruct (negb _); [injection H as <- <-; apply heard_same, no_report_nil|].
  destruct (pending_find _ _) as [q|]; [|injection H as <- <-; apply heard_same, no_report_nil].
  destruct (resolve aes adv s) as [s1 r] eqn:R. apply resolve_frame in R as (l & -> & _). cbv zeta in H.
  destruct (filter_duplicate _ _) as [s2 fresh] eqn:F in H. apply filter_duplicate_says in F as (k & -> & F). le_simpl_in F. injection H as <- <-.
  unfold heard, timing. le_simpl. split; [reflexivity|]. destruct F as [(-> & F1 & F2)|(-> & -> & F1 & F2)]; [|right; auto].
  left. split; [reflexivity|]. destruct fresh; [auto|right]. rewrite !andb_false_r. exact no_report_nil.
Qed.

Lemma receive_heard now s p s' st out : step now s (Receive p) = Ok s' st out -> heard p (scan s) (scan s') out.
Proof.
  intros S. destruct (touches (Receive p) PScan) eqn:TS.
  2:{ pose proof (step_same _ _ _ _ _ _ _ _ _ S PScan TS) as E. unfold same in E. rewrite E. apply heard_same.
      intros (e & I & R). destruct (reported e) as [a|] eqn:RE; [|now elim R].
      destruct (report_origin _ _ _ _ _ _ _ _ _ _ _ S I RE) as (q & adv & X & Y & _). injection X as ->.
      destruct q; try discriminate Y; discriminate TS. }
  destruct p; try discriminate TS; cbn [LeHost.step receive] in S.
  - unfold of_effect, receive_legacy_pdu in S. destruct (then_also _ _) as [s1 o1| |] eqn:E; try discriminate. ok S.
    apply then_also_inv in E as (s2 & o2 & o3 & E1 & E2 & ->).
    pose proof (connect_legacy_quiet _ _ _ _ _ _ _ _ E2) as Q. apply scan_legacy_heard in E1.
    assert (LeTypes.scan s1 = LeTypes.scan s2) as -> by (clear E1; frames; le_simpl; reflexivity).
    destruct E1 as [T [(A & B)|B]]; (split; [exact T|]); [left|right; exact B]. split; [exact A|]. destruct B as [B|B]; [auto|right].
    apply no_report_app; [exact B|now apply no_report_none].
  - unfold of_effect, receive_extended_pdu in S. destruct (then_also _ _) as [s1 o1| |] eqn:E; try discriminate. ok S.
    apply then_also_inv in E as (s2 & o2 & o3 & E1 & E2 & ->).
    pose proof (connect_extended_quiet _ _ _ _ _ _ _ _ _ E2) as Q. apply scan_extended_heard in E1.
    assert (LeTypes.scan s1 = LeTypes.scan s2) as -> by (clear E1; frames; le_simpl; reflexivity).
    destruct E1 as [T [(A & B)|B]]; (split; [exact T|]); [left|right; exact B]. split; [exact A|]. destruct B as [B|B]; [auto|right].
    apply no_report_app; [exact B|now apply no_report_none].
  - unfold of_pair in S. destruct (receive_scan_response _ _ _ _ _) as [s1 o1] eqn:E. ok S. now apply scan_response_heard in E.
Qed.

(** What a step does to the scanner *)
Inductive scan_change (u : bool) (now : N) (c : scanner) : op -> option status -> list output -> scanner -> Prop :=
| sc_reset : forall st out c', scan_enabled c' = false -> scan_history c' = [] -> scan_change u now c (Command Reset) st out c'
| sc_off : forall dups out c', scan_enabled c' = false -> scan_history c' = [] ->
    scan_change u now c (Command (SetScanEnable false dups)) (Some SUCCESS) out c'
| sc_off_ext : forall d x y out c', scan_enabled c' = false -> scan_history c' = [] ->
    scan_change u now c (Command (SetExtScanEnable false d x y)) (Some SUCCESS) out c'
| sc_on : forall dups out c', timing c' = (true, (if dups : bool then DUP_ENABLED else DUP_DISABLED), (None, None), (scan_duration c, scan_period c)) ->
    scan_history c' = [] -> scan_change u now c (Command (SetScanEnable true dups)) (Some SUCCESS) out c'
| sc_on_ext : forall d x y out c',
    timing c' = (true, d, (if x =? 0 then None else Some (now + 10000 * x),
                          if (if x =? 0 then 0 else y) =? 0 then None else Some (now + 1280000 * (if x =? 0 then 0 else y))),
                 (10000 * x, 1280000 * (if x =? 0 then 0 else y))) ->
    scan_history c' = [] -> scan_change u now c (Command (SetExtScanEnable true d x y)) (Some SUCCESS) out c'
| sc_command : forall q st out c', q <> Reset -> (forall on d, q = SetScanEnable on d -> st <> Some SUCCESS) ->
    (forall on d x y, q = SetExtScanEnable on d x y -> st <> Some SUCCESS) -> timing c' = timing c -> scan_history c' = scan_history c ->
    scan_change u now c (Command q) st out c'
| sc_heard : forall p st out c', heard p c c' out -> scan_change u now c (Receive p) st out c'
| sc_tick : forall st out c', scan_enabled c = false -> c' = c -> scan_change u now c Tick st out c'
| sc_stop : forall st out c' t, scan_enabled c = true -> scan_enabled c' = false -> scan_history c' = [] -> scan_timeout c = Some t -> t <= now -> scan_period_timeout c = None ->
    (u = true -> In (Notified EvScanTimeout) out) ->
    scan_change u now c Tick st out c'
| sc_go : forall st out c', scan_enabled c = true -> scan_enabled c' = true -> scan_dups c' = scan_dups c ->
    (scan_duration c', scan_period c') = (scan_duration c, scan_period c) ->
    (scan_period_timeout c = None -> scan_period_timeout c' = None /\ scan_timeout c' = scan_timeout c /\ (forall t, scan_timeout c = Some t -> now < t)) ->
    (scan_period_timeout c <> None -> scan_period_timeout c' <> None) ->
    (scan_history c' = scan_history c \/ (scan_history c' = [] /\ scan_dups c = DUP_RESET_EACH_PERIOD)) ->
    scan_change u now c Tick st out c'.

Lemma advertising_masks now s s1 o1 : le_advertising now s = Some (s1, o1) -> le_event_unmasked s1 17 = le_event_unmasked s 17.
Proof.
  unfold le_advertising. intros A. destruct (legacy_timeout now s) as [a1 p1] eqn:T1. destruct (legacy_advertise now a1) as [a2 p2] eqn:T2.
  destruct (advertise_sets _ _ _) as [[m o3]|]; [|discriminate]. injection A as <- <-.
  change (le_event_unmasked (with_sets m a2) 17) with (le_event_unmasked a2 17). transitivity (le_event_unmasked a1 17).
  - unfold legacy_advertise in T2. destruct (_ && _); [destruct (legacy_pdu_of _)|]; injection T2 as <- <-; reflexivity.
  - unfold legacy_timeout in T1. destruct (l_timeout _); [destruct (_ && _)|]; injection T1 as <- <-; reflexivity.
Qed.
Ltac fin := le_simpl; auto; try (intros; congruence); try (intros; exfalso; congruence); try (intros ?; split; [auto|split; [auto|]]; intros ? X; first [congruence|assert (X' := X); match goal with Q : scan_timeout _ = Some _ |- _ => rewrite Q in X' end; injection X' as <-; assumption]).
Lemma scan_changes now s o s' st out : step now s o = Ok s' st out -> scan_change (le_event_unmasked s 17) now (scan s) o st out (scan s').
Proof.
  intros S. destruct o as [c|p|]; [|apply sc_heard; exact (receive_heard _ _ _ _ _ _ S)|].
  - destruct (touches (Command c) PScan) eqn:TS.
    2:{ pose proof (step_same _ _ _ _ _ _ _ _ _ S PScan TS) as E. unfold same in E. rewrite E. apply sc_command; try reflexivity; destruct c; try discriminate TS; congruence. }
    cbn [LeHost.step] in S. destruct c; try discriminate TS.
    + cbn [run_command] in S. unfold reset, loud in S. ok S. apply sc_reset; reflexivity.
    + cbn [run_command] in S. unfold quiet, set_scan_parameters, select_legacy in S.
      repeat match type of S with context [if ?b then _ else _] => destruct b end; ok S; apply sc_command; try congruence; reflexivity.
    + cbn [run_command] in S. unfold quiet, set_scan_enable, select_legacy in S.
      destruct (extended_used s) in S; [ok S; apply sc_command; try congruence; reflexivity|].
      destruct on; cbn [negb] in S; [|ok S; apply sc_off; reflexivity].
      destruct (_ && _) in S at 1; [ok S; apply sc_command; try congruence; reflexivity|]. ok S. apply sc_on; reflexivity.
    + cbn [run_command] in S. unfold quiet, set_ext_scan_parameters, select_extended in S.
      destruct (legacy_used s) in S; [ok S; apply sc_command; try congruence; reflexivity|]. cbv zeta in S.
      do 5 (destruct (_ : bool) in S at 1; [ok S; apply sc_command; try congruence; reflexivity|]). ok S.
      apply sc_command; try congruence; destruct (N.testbit phys 0), (N.testbit phys 2); reflexivity.
    + cbn [run_command] in S. unfold quiet, set_ext_scan_enable, select_extended in S.
      destruct (legacy_used s) in S; [ok S; apply sc_command; try congruence; reflexivity|].
      destruct on; cbn [negb] in S; [|ok S; apply sc_off_ext; reflexivity]. cbv zeta in S.
      do 3 (destruct (_ && _) in S at 1; [ok S; apply sc_command; try congruence; reflexivity|]). ok S.
      apply sc_on_ext; unfold timing, scan_on; le_simpl; repeat match goal with |- context [if ?b then _ else _] => destruct b end; reflexivity.
  - cbn [LeHost.step] in S. unfold tick in S. destruct (le_advertising now s) as [[s1 o1]|] eqn:A; [|discriminate].
    destruct (le_scanning now s1) as [s2 o2] eqn:E. ok S. assert (M : le_event_unmasked s1 17 = le_event_unmasked s 17) by exact (advertising_masks _ _ _ _ A).
    apply advertising_scan in A. rewrite <- A, <- M. clear A M. unfold le_scanning in E.
    destruct (negb (scan_enabled (scan s1))) eqn:EN in E; [injection E as <- <-; apply negb_true_iff in EN; now apply sc_tick|].
    apply negb_false_iff in EN. cbv zeta in E.
    destruct (scan_timeout (scan s1)) as [t|] eqn:T.
    + destruct (t <=? now) eqn:LE.
      * destruct (scan_period_timeout (scan s1)) as [q|] eqn:P; cbn [is_some negb andb] in E.
        -- injection E as <- <-. rewrite T, P, LE. cbn [is_some andb]. le_simpl. cbn [is_some negb andb].
           rewrite ?P; destruct (q <=? now) eqn:LQ; [|apply sc_go; fin].
           destruct (scan_dups (scan s1)) eqn:D; (apply sc_go; fin).
        -- injection E as <- <-. unfold scan_off. le_simpl. rewrite ?T, ?P, ?LE. cbn [is_some andb negb]. le_simpl. rewrite ?P, ?andb_false_r. apply N.leb_le in LE.
           apply (sc_stop _ _ _ _ _ _ t); auto. intros ->. apply in_app_iff. right. now left.
      * cbn [andb] in E. injection E as <- <-. rewrite T, LE. cbn [andb]. rewrite T. cbn [is_some negb andb]. apply N.leb_gt in LE.
        apply sc_go; fin.
    + cbn [andb] in E. injection E as <- <-. rewrite T. cbn [andb]. rewrite T. cbn [is_some negb andb].
      destruct (scan_period_timeout (scan s1)) as [q|] eqn:P; [|apply sc_go; fin].
      rewrite ?P; destruct (q <=? now) eqn:LQ; [|apply sc_go; fin].
      destruct (scan_dups (scan s1)) eqn:D; (apply sc_go; fin).
Qed.

(** * The end of scanning *)

(** What the scanner remembers of the command *)
Definition follows (o : scan_order) (c : scanner) : Prop :=
  scan_dups c = so_duplicates o
  /\ (so_period o = 0 -> scan_period_timeout c = None
       /\ scan_timeout c = if so_duration o =? 0 then None else Some (so_time o + 10000 * so_duration o))
  /\ (so_period o <> 0 -> scan_period_timeout c <> None).

Lemma timing_fields c c' : timing c' = timing c -> scan_enabled c' = scan_enabled c /\ scan_dups c' = scan_dups c
  /\ scan_timeout c' = scan_timeout c /\ scan_period_timeout c' = scan_period_timeout c.
Proof. unfold timing. intros [= -> -> -> -> _ _]. auto. Qed.

Lemma follows_timing o c c' : timing c' = timing c -> follows o c -> follows o c'.
Proof. intros T. apply timing_fields in T as (_ & T1 & T2 & T3). unfold follows. now rewrite T1, T2, T3. Qed.

Lemma scan_given_skip now q st out h : q <> Reset -> (forall on d, q = SetScanEnable on d -> st <> Some SUCCESS) ->
  (forall on d x y, q = SetExtScanEnable on d x y -> st <> Some SUCCESS) -> scan_given (Entry now (Command q) st out :: h) = scan_given h.
Proof.
  intros N1 N2 N3. cbn [scan_given what status_of]. destruct q; try reflexivity; [now elim N1| |];
    (destruct st as [[]|]; try reflexivity; exfalso); [now apply (N2 _ _ eq_refl)|now apply (N3 _ _ _ _ eq_refl)].
Qed.

Lemma scan_followed h s : history h s -> scan_enabled (scan s) = true -> exists o, scan_given h = Some o /\ follows o (scan s).
Proof.
  induction 1 as [addr|h s now o s' st out H IH S]; intros EN; [discriminate|].
  apply scan_changes in S. remember (scan s) as c eqn:C. remember (scan s') as c' eqn:C'. clear C C' H.
  destruct S; try congruence.
  - eexists. split; [reflexivity|]. unfold timing in H. injection H as E1 E2 E3 E4 _ _. unfold follows. rewrite E2, E3, E4. cbn. repeat split; congruence.
  - eexists. split; [reflexivity|]. unfold timing in H. injection H as E1 E2 E3 E4 _ _. unfold follows. rewrite E2, E3, E4. cbn [so_duplicates so_period so_duration so_time at_time].
    split; [reflexivity|]. destruct (x =? 0) eqn:X.
    + rewrite N.eqb_refl. repeat split; congruence.
    + destruct (N.eqb_spec y 0) as [->|Y]; repeat split; congruence.
  - rewrite scan_given_skip by assumption. pose proof (timing_fields _ _ H2) as (T & _). rewrite T in EN.
    destruct (IH EN) as (o & G & F). exists o. split; [exact G|]. exact (follows_timing _ _ _ H2 F).
  - destruct H as [H _]. pose proof (timing_fields _ _ H) as (T & _). rewrite T in EN.
    destruct (IH EN) as (o & G & F). exists o. split; [exact G|]. exact (follows_timing _ _ _ H F).
  - destruct (IH H) as (o & G & F). exists o. split; [exact G|]. destruct F as (F1 & F2 & F3). split; [congruence|]. split.
    + intros P. destruct (F2 P) as [A B]. destruct (H2 A) as (X & Y & _) || destruct (H3 A) as (X & Y & _). rewrite X, Y. auto.
    + auto.
Qed.

Theorem scanning_stops now st out h s : history (Entry now Tick st out :: h) s -> scan_enabled (scan s) = true ->
  exists o, scan_given h = Some o /\ (so_duration o <> 0 -> so_period o = 0 -> now < so_time o + 10000 * so_duration o).
Proof.
  intros H EN. inversion H as [|? s0 ? ? ? ? ? H0 S]; subst. apply scan_changes in S. inversion S; subst; try congruence.
  destruct (scan_followed _ _ H0) as (o & G & F1 & F2 & F3); [assumption|]. exists o. split; [exact G|]. intros D P. destruct (F2 P) as [A B].
  apply N.eqb_neq in D. rewrite D in B. match goal with X : scan_period_timeout _ = None -> _ |- _ => destruct (X A) as (_ & _ & Y) end. exact (Y _ B).
Qed.

Theorem scanning_goes_on now st out h s0 s o : history h s0 -> step now s0 o = Ok s st out -> scan_enabled (scan s0) = true -> scan_enabled (scan s) = false ->
  stops_scanning o st \/
  (o = Tick /\ (exists d, scan_given h = Some d /\ so_duration d <> 0 /\ so_period d = 0 /\ so_time d + 10000 * so_duration d <= now)
   /\ (unmasked s0 EvScanTimeout -> In (Notified EvScanTimeout) out)).
Proof.
  intros H S EN DIS. apply scan_changes in S. inversion S; subst; cbn [stops_scanning]; try congruence; auto.
  - match goal with X : timing _ = _ |- _ => unfold timing in X; injection X as X _ end. congruence.
  - match goal with X : timing _ = _ |- _ => unfold timing in X; injection X as X _ end. congruence.
  - match goal with X : timing _ = _ |- _ => apply timing_fields in X as (X & _) end. congruence.
  - match goal with X : heard _ _ _ _ |- _ => destruct X as [X _]; apply timing_fields in X as (X & _) end. congruence.
  - right. split; [reflexivity|]. split; [|assumption]. destruct (scan_followed _ _ H EN) as (d & G & F1 & F2 & F3). exists d. split; [exact G|].
    destruct (N.eq_dec (so_period d) 0) as [P|P]; [|now elim (F3 P)]. destruct (F2 P) as [_ B].
    match goal with X : scan_timeout _ = Some _ |- _ => rewrite X in B end. destruct (so_duration d =? 0) eqn:D; [discriminate|]. apply N.eqb_neq in D.
    injection B as <-. auto.
Qed.

(** * Duplicates *)

Lemma since_skip P now q st out h : q <> Reset -> (forall on d, q = SetScanEnable on d -> st <> Some SUCCESS) ->
  (forall on d x y, q = SetExtScanEnable on d x y -> st <> Some SUCCESS) -> ~ P (Entry now (Command q) st out) ->
  (since_scanning P (Entry now (Command q) st out :: h) <-> since_scanning P h).
Proof.
  intros N1 N2 N3 N4. cbn [since_scanning what status_of]. destruct q; try tauto;
    (destruct st as [[]|]; try tauto; exfalso); [now apply (N2 _ _ eq_refl)|now apply (N3 _ _ _ _ eq_refl)].
Qed.

Lemma seen_reported h s p : history h s -> scan_enabled (scan s) = true -> scan_dups (scan s) = DUP_ENABLED ->
  since_scanning (reported_to_host p) h -> In p (scan_history (scan s)).
Proof.
  induction 1 as [addr|h s now o s' st out H IH S]; intros EN DU SI; [discriminate|].
  apply scan_changes in S. remember (scan s) as c eqn:C. remember (scan s') as c' eqn:C'. clear C C' H.
  destruct S; try congruence; try contradiction.
  - apply since_skip in SI; try assumption; [|intros [X _]; discriminate X]. apply timing_fields in H2 as (T1 & T2 & _). rewrite T1 in EN. rewrite T2 in DU. rewrite H3. auto.
  - cbn [since_scanning what status_of] in SI. destruct H as [T D]. apply timing_fields in T as (T1 & T2 & _). rewrite T1 in EN. rewrite T2 in DU.
    destruct SI as [[X R]|SI].
    + cbn [what sent] in X, R. injection X as <-. destruct D as [(E & [D|D])|(E & D & _)]; [congruence|now elim D|]. rewrite E. apply in_app_iff. right. now left.
    + specialize (IH EN DU SI). destruct D as [(E & _)|(E & _)]; rewrite E; [exact IH|]. apply in_app_iff. now left.
  - cbn [since_scanning what status_of] in SI. destruct SI as [[X _]|SI]; [discriminate X|]. rewrite H1 in DU. specialize (IH H DU SI).
    destruct H5 as [->|[_ X]]; [exact IH|congruence].
Qed.

Lemma received_seen h s p : history h s -> In p (scan_history (scan s)) -> since_scanning (received p) h.
Proof.
  induction 1 as [addr|h s now o s' st out H IH S]; intros I; [destruct I|].
  apply scan_changes in S. remember (scan s) as c eqn:C. remember (scan s') as c' eqn:C'. clear C C' H.
  destruct S; try (rewrite H0 in I; destruct I); try (rewrite H1 in I; destruct I).
  - apply since_skip; try assumption; [intros X; discriminate X|]. rewrite H3 in I. auto.
  - cbn [since_scanning what status_of]. destruct H as [T D]. destruct D as [(E & _)|(E & _)]; rewrite E in I; [auto|].
    apply in_app_iff in I as [I|[<-|[]]]; [auto|]. left. reflexivity.
  - subst. right. auto.
  - right. destruct H5 as [X|[X _]]; rewrite X in I; [auto|destruct I].
Qed.

Theorem no_duplicates h s now p s' st out : history h s -> step now s (Receive p) = Ok s' st out ->
  (exists o, scan_given h = Some o /\ so_duplicates o = DUP_ENABLED) -> since_scanning (reported_to_host p) h -> ~ has_report out.
Proof.
  intros H S (o & G & D) SI R. destruct R as (e & I & R). destruct (reported e) as [a|] eqn:RE; [|now elim R].
  assert (EN : scan_enabled (scan s) = true).
  { destruct (report_origin _ _ _ _ _ _ _ _ _ _ _ S I RE) as (q & adv & _ & _ & _ & [[X _]|[X _]]); exact X. }
  destruct (scan_followed _ _ H EN) as (o' & G' & F & _). assert (o' = o) by congruence. subst o'.
  pose proof (seen_reported _ _ p H EN (eq_trans F D) SI) as IN.
  destruct (receive_heard _ _ _ _ _ _ S) as [_ [(_ & [X|X])|(_ & X & _)]]; [congruence| |contradiction].
  apply X. exists e. split; [exact I|congruence].
Qed.

Theorem first_reported h s now adv tgt t data s' st out : history h s -> step now s (Receive (AirLegacy adv tgt t data)) = Ok s' st out ->
  first_family unchecked h = Some Legacy -> scan_enabled (scan s) = true -> t <> PDU_DIRECT ->
  ~ since_scanning (received (AirLegacy adv tgt t data)) h ->
  (listed_only (scan_policy_given h) -> forall i, known_as aes s adv i -> on_accept_list s i) ->
  (forall i c, unmasked s (EvReport i c data)) ->
  exists i c, known_as aes s adv i /\ In (Notified (EvReport i c data)) out.
Proof.
  intros H S FAM EN ND NS A UN. rewrite <- (scan_policy_history _ _ _ _ _ H) in A.
  pose proof (flags_history _ _ _ _ _ H) as FL. rewrite FAM in FL. destruct FL as [LU EU].
  assert (NI : ~ In (AirLegacy adv tgt t data) (scan_history (scan s))) by (intros X; apply NS; exact (received_seen _ _ _ H X)).
  cbn [LeHost.step receive] in S. unfold of_effect, receive_legacy_pdu in S.
  destruct (then_also _ _) as [s1 o1| |] eqn:E in S; try discriminate S; ok S.
  apply then_also_inv in E; destruct E as (s2 & o2 & o3 & E1 & E2 & ->).
  exists (who (resolving_on s) (resolving s) adv), (report_code t). split; [apply who_known|]. apply in_app_iff. left.
  unfold scan_legacy_pdu in E1. rewrite EN in E1. cbn [negb] in E1.
  destruct (resolve aes adv s) as [s3 r] eqn:R. pose proof (resolve_who _ _ _ _ _ R) as W. apply resolve_frame in R as (l & -> & _). rewrite <- W.
  assert (X : scan_filter_ok (with_resolving l s) r = true).
  { apply (passes_filter (with_resolving l s)). intros L. apply (A L). rewrite W. apply who_known. }
  rewrite X in E1. cbn [negb] in E1.
  assert (Y : match t with PDU_DIRECT => true | _ => false end = false) by (destruct t; try reflexivity; now elim ND). rewrite Y in E1.
  destruct (filter_duplicate _ _) as [s4 fresh] eqn:F in E1. apply filter_duplicate_says in F as (k & -> & F). le_simpl_in F.
  assert (fresh = true) as ->.
  { destruct F as [(_ & _ & F)|(F & _)]; [|exact F]. destruct fresh; [reflexivity|]. elim NI; now apply F. }
  cbv iota beta zeta in E1. le_simpl_in E1. rewrite LU in E1.
  specialize (UN r (report_code t)). unfold unmasked in UN. cbn [subevent] in UN.
  match type of E1 with context [le_event_unmasked ?x 2] => change (le_event_unmasked x 2) with (le_event_unmasked s 2) in E1 end. rewrite UN in E1.
  destruct (send_scan_request _ _ _ _ _ _ _ _ _ _ _ _) as [[s5 o4]|]; [|discriminate]. injection E1 as <- <-.
  cbn [andb negb app]. left. reflexivity.
Qed.

(** * Fragments *)

Lemma fragments_whole fuel : forall max d, 0 < max -> (length d <= fuel)%nat -> whole max d (fragments fuel max d).
Proof.
  unfold whole. induction fuel as [|f IH]; intros max d P L; cbn [fragments].
  - destruct d; [|cbn in L; lia]. split; [reflexivity|]. split; [constructor; [apply N.le_0_l|constructor]|]. exists [], []. auto.
  - destruct (lenN d <=? max) eqn:E.
    + apply N.leb_le in E. split; [cbn; apply app_nil_r|]. split; [constructor; [exact E|constructor]|]. exists [], d. auto.
    + apply N.leb_gt in E. unfold lenN in E. specialize (IH max (skipn (N.to_nat max) d) P).
      destruct IH as (A & B & fs & l & C & D); [rewrite skipn_length; lia|]. split; [|split].
      * cbn [map concat snd]. rewrite A. apply firstn_skipn.
      * constructor; [|exact B]. cbn [snd]. unfold lenN. rewrite firstn_length. lia.
      * exists ((true, firstn (N.to_nat max) d) :: fs), l. rewrite C. split; [reflexivity|]. constructor; auto.
Qed.

Lemma ext_pieces_app a b : extended_pieces (a ++ b) = extended_pieces a ++ extended_pieces b.
Proof. unfold extended_pieces. apply flat_map_app. Qed.
Lemma ext_pieces_none o : (forall e, ~ In (Notified e) o) -> extended_pieces o = [].
Proof.
  induction o as [|x o IH]; intros N; [reflexivity|]. unfold extended_pieces in *. cbn [flat_map]. rewrite IH by (intros e I; apply (N e); now right).
  destruct x; [reflexivity|]. elim (N e). now left.
Qed.
Lemma ext_pieces_map c sc d r l a sid fs :
  extended_pieces (map (fun f => Notified (EvExtendedReport c sc d r l (fst f) a sid (snd f))) fs) = fs.
Proof. unfold extended_pieces. induction fs as [|[m x] fs IH]; [reflexivity|]. cbn [map flat_map fst snd app]. now rewrite IH. Qed.

Theorem extended_report_whole now s p s' st out adv tgt c sc d sid power prim sec pi data :
  p = AirExtended adv tgt c sc d sid power prim sec pi data -> step now s (Receive p) = Ok s' st out ->
  extended_pieces out = [] \/ whole 229 data (extended_pieces out).
Proof.
  intros -> S. cbn [LeHost.step receive] in S. unfold of_effect, receive_extended_pdu in S. destruct (then_also _ _) as [s1 o1| |] eqn:E; try discriminate. ok S.
  apply then_also_inv in E as (s2 & o2 & o3 & E1 & E2 & ->).
  pose proof (connect_extended_quiet _ _ _ _ _ _ _ _ _ E2) as Q. rewrite ext_pieces_app, (ext_pieces_none _ Q), app_nil_r.
  unfold scan_extended_pdu in E1.
  do 4 (destruct (_ : bool) in E1 at 1; [injection E1 as <- <-; now left|]). cbv zeta in E1.
  destruct (resolve aes adv s) as [s3 r]. destruct (negb _) in E1; [injection E1 as <- <-; now left|].
  destruct (if d then _ else _) as [only|] in E1; [|injection E1 as <- <-; now left].
  destruct (filter_duplicate _ _) as [s4 fresh] in E1.
  destruct (send_scan_request _ _ _ _ _ _ _ _ _ _ _ _) as [[s5 o4]|] eqn:SR in E1; [|discriminate].
  pose proof (send_scan_silent _ _ _ _ _ _ _ _ _ _ _ _ SR) as Q2. injection E1 as <- <-. rewrite ext_pieces_app, (ext_pieces_none _ Q2), app_nil_r.
  destruct (_ && _); [|now left]. right. rewrite ext_pieces_map. apply fragments_whole; lia.
Qed.
Theorem response_report_whole now s s' st out adv dst data : step now s (Receive (AirScanResponse adv dst data)) = Ok s' st out ->
  extended_pieces out = [] \/ whole 229 data (extended_pieces out).
Proof.
  intros S. cbn [LeHost.step receive] in S. unfold of_pair in S. destruct (receive_scan_response _ _ _ _ _) as [s1 o1] eqn:E. ok S.
  unfold receive_scan_response in E. destruct (negb _) in E; [injection E as <- <-; now left|].
  destruct (pending_find _ _) in E; [|injection E as <- <-; now left]. destruct (resolve _ _ _) as [s2 r] in E. cbv zeta in E.
  destruct (filter_duplicate _ _) as [s3 fresh] in E. injection E as <- <-. rewrite ext_pieces_app.
  match goal with |- context [extended_pieces (if ?b then [Notified ?e] else [])] =>
    assert (Z : extended_pieces (if b then [Notified e] else []) = []) by (destruct b; reflexivity) end. rewrite Z. cbn [app]. clear Z.
  destruct (_ && _); [|now left]. right. rewrite ext_pieces_map. apply fragments_whole; lia.
Qed.

Lemma synced_nodup h s : history h s -> NoDup (keys (synced s)).
Proof.
  induction 1 as [addr|h s now o s' st out H IH S]; [constructor|].
  destruct (touches o PSynced) eqn:T; [|pose proof (step_same _ _ _ _ _ _ _ _ _ S PSynced T) as E; cbn [same] in E; now rewrite E].
  destruct o as [q|p|]; [destruct q; try discriminate T|destruct p; try discriminate T|discriminate T]; cbn [LeHost.step] in S.
  - cbn [run_command] in S. unfold reset, loud in S. ok S. constructor.
  - unfold_step S. destruct (has _ _) in S; ok S; [apply nodup_erase; exact IH|exact IH].
  - cbn [receive] in S. unfold of_pair, receive_periodic in S.
    destruct (negb _) in S; [ok S; exact IH|]. destruct (negb _) in S; [ok S; exact IH|]. destruct (resolve _ _ _) as [s2 r] eqn:R in S. apply resolve_frame in R as (l & -> & _). cbv zeta in S.
    match type of S with context [match ?m with Some _ => _ | None => _ end] => destruct m in S end; ok S; le_simpl.
    + apply nodup_put. exact IH.
    + unfold keys. rewrite map_map. erewrite map_ext; [exact IH|]. intros [k v]. cbn [fst snd]. now destruct (synced_match _ _ _ _).
Qed.

Lemma periodic_pieces_app k a b : periodic_pieces k (a ++ b) = periodic_pieces k a ++ periodic_pieces k b.
Proof. unfold periodic_pieces. apply flat_map_app. Qed.
Lemma periodic_pieces_map k j fs : periodic_pieces k (map (fun f => Notified (EvPeriodicReport j (fst f) (snd f))) fs) = if j =? k then fs else [].
Proof.
  unfold periodic_pieces. destruct (j =? k) eqn:E; induction fs as [|[m x] fs IH]; try reflexivity; cbn [map flat_map fst snd]; rewrite E, IH; reflexivity.
Qed.

Theorem periodic_report_whole h s now s' st out adv sid power pi data k : history h s ->
  step now s (Receive (AirPeriodic adv sid power pi data)) = Ok s' st out ->
  periodic_pieces k out = [] \/ whole 247 data (periodic_pieces k out).
Proof.
  intros H S. cbn [LeHost.step receive] in S. unfold of_pair, receive_periodic in S.
  destruct (negb _) in S; [ok S; now left|]. destruct (negb _) in S; [ok S; now left|]. destruct (resolve _ _ _) as [s2 r] eqn:R in S. apply resolve_frame in R as (l & -> & _). cbv zeta in S.
  match type of S with context [match ?m with Some _ => _ | None => _ end] => destruct m in S end; ok S; le_simpl.
  - left. destruct (le_event_unmasked _ _); reflexivity.
  - destruct (le_event_unmasked _ _); [|now left]. pose proof (synced_nodup _ _ H) as ND. revert ND. generalize (synced s) as m.
    induction m as [|[j v] m IH]; intros ND; [now left|]. inversion ND as [|? ? N1 N2]; subst. cbn [flat_map fst snd]. rewrite periodic_pieces_app.
    assert (Z : j = k -> periodic_pieces k (flat_map (fun kv : N * synchronized => if synced_match (to_peer_type (awt_type r)) (awt_addr r) sid (snd kv)
        then map (fun f => Notified (EvPeriodicReport (fst kv) (fst f) (snd f))) (fragments (length data) 247 data) else []) m) = []).
    { intros ->. clear - N1. induction m as [|[j v] m IH]; [reflexivity|]. cbn [flat_map fst snd]. rewrite periodic_pieces_app. cbn [map fst keys] in N1.
      rewrite IH by (intros X; apply N1; now right). rewrite app_nil_r. destruct (synced_match _ _ _ _); [|reflexivity]. rewrite periodic_pieces_map.
      destruct (N.eqb_spec j k) as [->|]; [elim N1; now left|reflexivity]. }
    destruct (synced_match _ _ _ v); [|cbn [app]; exact (IH N2)]. rewrite periodic_pieces_map. destruct (N.eqb_spec j k) as [E|E]; [|exact (IH N2)].
    rewrite (Z E), app_nil_r. right. apply fragments_whole; lia.
Qed.
End WithController.
