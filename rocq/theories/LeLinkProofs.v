(** Proofs about LE connections. *)
From Verif Require Import Prelude LeLink LeLinkSpec ScoProofs.
Open Scope N_scope.
Ltac Zify.zify_post_hook ::= Z.div_mod_to_equations.

Ltac crack H :=
  repeat match type of H with
  | context [match ?x with _ => _ end] => destruct x eqn:?; cbn beta iota in H; try discriminate H
  end.
Lemma tuple4 {A B C D} (a a' : A) (b b' : B) (c c' : C) (d d' : D) : (a, b, c, d) = (a', b', c', d') -> a' = a /\ b' = b /\ c' = c /\ d' = d.
Proof. now intros [= -> -> -> ->]. Qed.
Lemma some3 {A B C} (a a' : A) (b b' : B) (c c' : C) : Some (a, b, c) = Some (a', b', c') -> a' = a /\ b' = b /\ c' = c.
Proof. now intros [= -> -> ->]. Qed.
Ltac command_cases H :=
  unfold do_command in H; crack H; unfold refuse in H; apply tuple4 in H; destruct H as (-> & -> & -> & ->).
Ltac receive_cases H :=
  unfold do_receive in H; cbv zeta in H; crack H; apply some3 in H; destruct H as (-> & -> & ->).

(** * Roles and packets *)
Definition for_per (p : pdu) : bool := match p with PhyRsp _ _ | SubrateReq _ _ _ _ _ => false | _ => true end.
Definition for_cen (p : pdu) : bool := match p with PhyUpdateInd _ _ | SubrateInd _ _ _ _ _ => false | _ => true end.

Lemma command_roles m e c e' st ps ev : do_command m e c = (e', st, ps, ev) ->
  central e' = central e /\ forallb (if central e then for_per else for_cen) ps = true.
Proof.
  intros H. destruct c; command_cases H; (split; [cbn; congruence|]); cbn; destruct (central e) eqn:R; cbn; try reflexivity; congruence.
Qed.
Lemma receive_roles m e p e' ps ev : do_receive m e p = Some (e', ps, ev) ->
  central e' = central e /\ forallb (if central e then for_per else for_cen) ps = true.
Proof.
  intros H. destruct p; receive_cases H; (split; [cbn; congruence|]); cbn; destruct (central e) eqn:R; cbn; try reflexivity;
    rewrite ?negb_false_iff in *; congruence.
Qed.
Lemma receive_defined m e p : (if central e then for_cen p else for_per p) = true -> do_receive m e p <> None.
Proof.
  intros H. unfold do_receive. cbv zeta. destruct (negb (up e)); [discriminate|].
  destruct (central e) eqn:R; destruct p; cbn in H; try discriminate H; cbn [negb]; try discriminate;
    repeat match goal with |- context [if ?b then _ else _] => destruct b end; discriminate.
Qed.

Record Roles (s : system) : Prop := {
  r_cen : central (cen s) = true; r_per : central (per s) = false;
  r_to_per : forallb for_per (to_per s) = true; r_to_cen : forallb for_cen (to_cen s) = true }.

Lemma step_roles s o s' st ev : Roles s -> step s o = Some (s', st, ev) -> Roles s'.
Proof.
  intros R H. unfold step in H. destruct o as [[] m c|[] m].
  - destruct (do_command m (cen s) c) as [[[e st'] ps] ev'] eqn:D. injection H as <- <- <-. destruct (command_roles _ _ _ _ _ _ _ D) as [E F].
    rewrite (r_cen s R) in *. constructor; cbn; try apply R; [exact E|]. rewrite forallb_app, F, (r_to_per s R). reflexivity.
  - destruct (do_command m (per s) c) as [[[e st'] ps] ev'] eqn:D. injection H as <- <- <-. destruct (command_roles _ _ _ _ _ _ _ D) as [E F].
    rewrite (r_per s R) in *. constructor; cbn; try apply R; [exact E|]. rewrite forallb_app, F, (r_to_cen s R). reflexivity.
  - destruct (to_cen s) as [|p rest] eqn:T; [injection H as <- <- <-; exact R|].
    destruct (do_receive m (cen s) p) as [[[e ps] ev']|] eqn:D; [|discriminate]. injection H as <- <- <-. destruct (receive_roles _ _ _ _ _ _ D) as [E F].
    pose proof (r_to_cen s R) as X. rewrite T in X. cbn in X. apply andb_true_iff in X as [_ X].
    rewrite (r_cen s R) in *. constructor; cbn; try apply R; [exact E| |exact X]. rewrite forallb_app, F, (r_to_per s R). reflexivity.
  - destruct (to_per s) as [|p rest] eqn:T; [injection H as <- <- <-; exact R|].
    destruct (do_receive m (per s) p) as [[[e ps] ev']|] eqn:D; [|discriminate]. injection H as <- <- <-. destruct (receive_roles _ _ _ _ _ _ D) as [E F].
    pose proof (r_to_per s R) as X. rewrite T in X. cbn in X. apply andb_true_iff in X as [_ X].
    rewrite (r_per s R) in *. constructor; cbn; try apply R; [exact E|exact X|]. rewrite forallb_app, F, (r_to_cen s R). reflexivity.
Qed.
Lemma connected_roles c p i lat tmo : Roles (connected c p i lat tmo).
Proof. now constructor. Qed.
Lemma history_roles c p i lat tmo h s : history (connected c p i lat tmo) h s -> Roles s.
Proof. induction 1; [apply connected_roles|eapply step_roles; eassumption]. Qed.

Lemma step_defined s o : Roles s -> step s o <> None.
Proof.
  intros R. unfold step. destruct o as [[] m c|[] m].
  - destruct (do_command m (cen s) c) as [[[? ?] ?] ?]. discriminate.
  - destruct (do_command m (per s) c) as [[[? ?] ?] ?]. discriminate.
  - destruct (to_cen s) as [|p rest] eqn:T; [discriminate|].
    assert (N : do_receive m (cen s) p <> None).
    { apply receive_defined. rewrite (r_cen s R). pose proof (r_to_cen s R) as X. rewrite T in X. cbn in X. now apply andb_true_iff in X. }
    destruct (do_receive m (cen s) p) as [[[? ?] ?]|]; [discriminate|congruence].
  - destruct (to_per s) as [|p rest] eqn:T; [discriminate|].
    assert (N : do_receive m (per s) p <> None).
    { apply receive_defined. rewrite (r_per s R). pose proof (r_to_per s R) as X. rewrite T in X. cbn in X. now apply andb_true_iff in X. }
    destruct (do_receive m (per s) p) as [[[? ?] ?]|]; [discriminate|congruence].
Qed.

(** The four kinds of steps *)
Ltac step_cases H :=
  unfold step in H;
  match type of H with
  | context [match ?o with Host _ _ _ => _ | Deliver _ _ => _ end] => destruct o as [[] m c|[] m]
  end;
  [ match type of H with context [do_command ?m ?e ?c] => destruct (do_command m e c) as [[[e' st'] ps] ev'] eqn:D end; injection H as <- <- <-
  | match type of H with context [do_command ?m ?e ?c] => destruct (do_command m e c) as [[[e' st'] ps] ev'] eqn:D end; injection H as <- <- <-
  | match type of H with context [match to_cen ?s with _ => _ end] => destruct (to_cen s) as [|p rest] eqn:T end;
      [injection H as <- <- <-|match type of H with context [do_receive ?m ?e ?c] => destruct (do_receive m e c) as [[[e' ps] ev']|] eqn:D end; [|discriminate H]; injection H as <- <- <-]
  | match type of H with context [match to_per ?s with _ => _ end] => destruct (to_per s) as [|p rest] eqn:T end;
      [injection H as <- <- <-|match type of H with context [do_receive ?m ?e ?c] => destruct (do_receive m e c) as [[[e' ps] ev']|] eqn:D end; [|discriminate H]; injection H as <- <- <-] ].

(** * PHYs *)
Lemma land_bit a k : negb (N.land a (2 ^ k) =? 0) = N.testbit a k.
Proof. apply (allowed_bit_spec a k). Qed.
Lemma select_spec a cur : select_phy a cur = if N.testbit a 2 then LE_CODED else if N.testbit a 1 then LE_2M else if N.testbit a 0 then LE_1M else cur.
Proof.
  unfold select_phy. change 4 with (2 ^ 2). change (N.land a 2) with (N.land a (2 ^ 1)). change (N.land a 1) with (N.land a (2 ^ 0)).
  now rewrite !land_bit.
Qed.
Lemma phy_eqb_eq a b : phy_eqb a b = true <-> a = b.
Proof. destruct a, b; cbn; split; congruence. Qed.
Lemma select_indicate a b cur : a = cur -> select_phy (indicate_phy b a) cur = b.
Proof. intros ->. destruct b, cur; reflexivity. Qed.
Lemma select_both a b cur : both_allow a b cur (select_phy (N.land a b) cur).
Proof.
  rewrite select_spec, !N.land_spec. unfold both_allow, allows.
  destruct (N.testbit a 2 && N.testbit b 2) eqn:E2; [apply andb_true_iff in E2 as [? ?]; left; repeat split; congruence|].
  assert (N2 : ~ (N.testbit a 2 = true /\ N.testbit b 2 = true)) by (rewrite <- andb_true_iff; congruence).
  destruct (N.testbit a 1 && N.testbit b 1) eqn:E1; [apply andb_true_iff in E1 as [? ?]; left; repeat split; try congruence; intros _; exact N2|].
  assert (N1 : ~ (N.testbit a 1 = true /\ N.testbit b 1 = true)) by (rewrite <- andb_true_iff; congruence).
  destruct (N.testbit a 0 && N.testbit b 0) eqn:E0; [apply andb_true_iff in E0 as [? ?]; left; repeat split; try congruence; intros _; assumption|].
  right. split; [reflexivity|]. intros []; [rewrite <- andb_true_iff; congruence|exact N1|exact N2].
Qed.

(** What the peripheral will use when it has read the packets on their way *)
Definition apply_phy (x : phy * phy) (p : pdu) : phy * phy :=
  match p with PhyUpdateInd c_to_p p_to_c => (select_phy p_to_c (fst x), select_phy c_to_p (snd x)) | _ => x end.
Definition phys_agree (s : system) : Prop :=
  up (per s) = true -> fold_left apply_phy (to_per s) (tx_phy (per s), rx_phy (per s)) = (rx_phy (cen s), tx_phy (cen s)).

Definition no_phy_ind (p : pdu) : bool := match p with PhyUpdateInd _ _ => false | _ => true end.
Lemma fold_no_ind ps : forall x, forallb no_phy_ind ps = true -> fold_left apply_phy ps x = x.
Proof.
  induction ps as [|p ps IH]; intros x H; [reflexivity|]. cbn in H. apply andb_true_iff in H as [A B]. cbn. rewrite IH by exact B. now destruct p.
Qed.
Lemma command_phys m e c e' st ps ev : do_command m e c = (e', st, ps, ev) ->
  tx_phy e' = tx_phy e /\ rx_phy e' = rx_phy e /\ forallb no_phy_ind ps = true /\ (up e' = true -> up e = true).
Proof. intros H. destruct c; command_cases H; repeat split; try reflexivity; try (cbn; congruence). Qed.

Lemma receive_cen_phys m e p e' ps ev : central e = true -> do_receive m e p = Some (e', ps, ev) ->
  fold_left apply_phy ps (rx_phy e, tx_phy e) = (rx_phy e', tx_phy e').
Proof.
  intros R H. destruct p; receive_cases H; try reflexivity; try congruence; cbn; rewrite !select_indicate; reflexivity.
Qed.
Lemma receive_per_phys m e p e' ps ev : central e = false -> up e = true -> do_receive m e p = Some (e', ps, ev) ->
  (tx_phy e', rx_phy e') = apply_phy (tx_phy e, rx_phy e) p.
Proof. intros R U H. destruct p; receive_cases H; try reflexivity; rewrite ?U in *; cbn in *; congruence. Qed.
Lemma receive_up m e p e' ps ev : do_receive m e p = Some (e', ps, ev) -> up e' = true -> up e = true.
Proof. intros H. destruct p; receive_cases H; cbn; congruence. Qed.

Lemma step_phys s o s' st ev : Roles s -> phys_agree s -> step s o = Some (s', st, ev) -> phys_agree s'.
Proof.
  intros R A H. unfold phys_agree in *. step_cases H; cbn [cen per to_per to_cen].
  - destruct (command_phys _ _ _ _ _ _ _ D) as (-> & -> & N & _). intros U. now rewrite fold_left_app, (A U), fold_no_ind.
  - destruct (command_phys _ _ _ _ _ _ _ D) as (-> & -> & N & V). intros U. exact (A (V U)).
  - exact A.
  - intros U. rewrite fold_left_app, (A U). exact (receive_cen_phys _ _ _ _ _ _ (r_cen s R) D).
  - rewrite T. exact A.
  - intros U. pose proof (receive_up _ _ _ _ _ _ D U) as U'. rewrite (receive_per_phys _ _ _ _ _ _ (r_per s R) U' D). exact (A U').
Qed.
Lemma history_phys c p i lat tmo h s : history (connected c p i lat tmo) h s -> phys_agree s.
Proof.
  intros H. enough (Roles s /\ phys_agree s) by tauto. induction H as [|h s o s' st ev H [R A] S].
  - split; [apply connected_roles|]. intros _. reflexivity.
  - split; [eapply step_roles|eapply step_phys]; eassumption.
Qed.
Lemma phys_equal c p i lat tmo h s : history (connected c p i lat tmo) h s -> up (per s) = true -> to_per s = [] ->
  tx_phy (cen s) = rx_phy (per s) /\ rx_phy (cen s) = tx_phy (per s).
Proof. intros H U T. pose proof (history_phys _ _ _ _ _ _ _ H U) as A. rewrite T in A. cbn in A. injection A as -> ->. auto. Qed.

(** The events tell what the end uses *)
Lemma phy_events s o s' st ev tx rx : step s o = Some (s', st, ev) -> In (PhyUpdateComplete tx rx) ev ->
  exists x, on_side x o = true /\ tx = tx_phy (end_of x s') /\ rx = rx_phy (end_of x s').
Proof.
  intros H I. step_cases H.
  - exfalso. destruct c; command_cases D; unfold emit in I; repeat match type of I with context [if ?b then _ else _] => destruct b end; cbn in I; intuition discriminate.
  - exfalso. destruct c; command_cases D; unfold emit in I; repeat match type of I with context [if ?b then _ else _] => destruct b end; cbn in I; intuition discriminate.
  - contradiction.
  - exists Central. split; [reflexivity|]. cbn. destruct p; receive_cases D; unfold emit in I; repeat match type of I with context [if ?b then _ else _] => destruct b end; cbn in I; try contradiction;
      destruct I as [I|[]]; try discriminate I; injection I as <- <-; auto.
  - contradiction.
  - exists Peripheral. split; [reflexivity|]. cbn. destruct p; receive_cases D; unfold emit in I; repeat match type of I with context [if ?b then _ else _] => destruct b end; cbn in I; try contradiction;
      destruct I as [I|[]]; try discriminate I; injection I as <- <-; auto.
Qed.

(** * Connection parameters *)
Definition apply_cp (x : cparams) (p : pdu) : cparams :=
  match p with
  | SubrateInd st f l c t => if st =? SUCCESS then CParams (interval x) f c l t else x
  | ParamUpdate st i l t => if st =? SUCCESS then CParams i 1 0 l t else x
  | _ => x
  end.
Definition no_update (p : pdu) : bool := match p with ParamUpdate st _ _ _ => negb (st =? SUCCESS) | _ => true end.
Record Params_agree (s : system) : Prop := {
  pa_fold : up (per s) = true -> fold_left apply_cp (to_per s) (cp (per s)) = cp (cen s);
  pa_to_cen : forallb no_update (to_cen s) = true }.

Lemma command_cen_cp m e c e' st ps ev : central e = true -> in_step (Host Central m c) -> do_command m e c = (e', st, ps, ev) ->
  fold_left apply_cp ps (cp e) = cp e'.
Proof.
  intros R I H. destruct c; command_cases H; try reflexivity; try contradiction; try congruence. cbn in *.
  destruct (N.eqb_spec reason SUCCESS); [contradiction|reflexivity].
Qed.
Lemma command_per_cp m e c e' st ps ev : central e = false -> in_step (Host Peripheral m c) -> do_command m e c = (e', st, ps, ev) ->
  cp e' = cp e /\ forallb no_update ps = true.
Proof.
  intros R I H. destruct c; command_cases H; try (split; reflexivity); try contradiction; try congruence. split; [reflexivity|]. cbn in *.
  destruct (N.eqb_spec reason SUCCESS); [contradiction|reflexivity].
Qed.
Lemma receive_cen_cp m e p e' ps ev : central e = true -> no_update p = true -> do_receive m e p = Some (e', ps, ev) ->
  fold_left apply_cp ps (cp e) = cp e'.
Proof.
  intros R NU H. destruct p; receive_cases H; try reflexivity; try congruence. cbn in NU.
  match goal with E : (_ =? SUCCESS) = true |- _ => rewrite E in NU; discriminate NU end.
Qed.
Lemma receive_per_cp m e p e' ps ev : central e = false -> up e = true -> do_receive m e p = Some (e', ps, ev) ->
  cp e' = apply_cp (cp e) p /\ forallb no_update ps = true.
Proof.
  intros R U H. destruct p; receive_cases H; rewrite ?U, ?R in *; try discriminate; try congruence; try (split; reflexivity); cbn;
    repeat match goal with E : (_ =? SUCCESS) = _ |- _ => rewrite E end; split; reflexivity.
Qed.

Lemma step_params s o s' st ev : Roles s -> Params_agree s -> in_step o -> step s o = Some (s', st, ev) -> Params_agree s'.
Proof.
  intros R [A B] I H. step_cases H.
  - constructor; cbn; [|exact B]. intros U. rewrite fold_left_app, (A U). exact (command_cen_cp _ _ _ _ _ _ _ (r_cen s R) I D).
  - destruct (command_per_cp _ _ _ _ _ _ _ (r_per s R) I D) as [E F]. destruct (command_phys _ _ _ _ _ _ _ D) as (_ & _ & _ & V).
    constructor; cbn; [intros U; rewrite E; exact (A (V U))|]. now rewrite forallb_app, B, F.
  - constructor; [exact A|]. rewrite T. reflexivity.
  - rewrite ?T in *. cbn in B. apply andb_true_iff in B as [B1 B2]. constructor; cbn; [|exact B2]. intros U. rewrite fold_left_app, (A U).
    exact (receive_cen_cp _ _ _ _ _ _ (r_cen s R) B1 D).
  - constructor; [|exact B]. rewrite T. exact A.
  - constructor; cbn; [intros U; pose proof (receive_up _ _ _ _ _ _ D U) as U'; destruct (receive_per_cp _ _ _ _ _ _ (r_per s R) U' D) as [-> _]; exact (A U')|].
    rewrite forallb_app, B. cbn. destruct (up (per s)) eqn:U.
    + now destruct (receive_per_cp _ _ _ _ _ _ (r_per s R) U D).
    + unfold do_receive in D. rewrite U in D. cbn in D. injection D as <- <- <-. reflexivity.
Qed.
Lemma history_params c p i lat tmo h s : history (connected c p i lat tmo) h s -> all_in_step h -> Params_agree s.
Proof.
  intros H Q. enough (Roles s /\ Params_agree s) by tauto. induction H as [|h s o s' st ev H IH S].
  - split; [apply connected_roles|]. constructor; reflexivity.
  - destruct IH as [R A]; [intros x I; apply Q; now right|]. split; [eapply step_roles; eassumption|].
    eapply step_params; try eassumption. exact (Q _ (or_introl eq_refl)).
Qed.
Lemma params_equal c p i lat tmo h s : history (connected c p i lat tmo) h s -> all_in_step h -> up (per s) = true -> to_per s = [] ->
  cp (per s) = cp (cen s).
Proof. intros H Q U T. pose proof (pa_fold _ (history_params _ _ _ _ _ _ _ H Q) U) as A. rewrite T in A. exact A. Qed.

(** * Subrating *)
Lemma ranges_ok z smin smax lat cont tmo : z <> SUCCESS -> subrate_ranges z smin smax lat cont tmo = SUCCESS ->
  1 <= smin <= smax /\ smax <= 500 /\ lat <= 499 /\ cont <= 499 /\ 10 <= tmo <= 3200.
Proof.
  intros Z C. unfold subrate_ranges in C.
  repeat match type of C with context [if ?b then _ else _] => destruct b eqn:?; try discriminate C; try congruence end.
  rewrite ?orb_false_iff, ?N.ltb_ge in *. lia.
Qed.
Lemma check_ok e smin smax lat cont tmo : negb (check_subrate_request e smin smax lat cont tmo =? SUCCESS) = false ->
  (1 <= smin <= smax /\ smax <= 500 /\ lat <= 499 /\ cont <= 499 /\ 10 <= tmo <= 3200) /\ smax * (lat + 1) <= 500 /\
  interval (cp e) * smax * (lat + 1) < tmo / 2 /\ cont < smax.
Proof.
  rewrite negb_false_iff, N.eqb_eq. unfold check_subrate_request. cbv zeta. intros C.
  destruct (N.eqb_spec (subrate_ranges INVALID_HCI_COMMAND_PARAMETERS smin smax lat cont tmo) SUCCESS) as [E|E]; cbn [negb] in C; [|congruence].
  split; [apply (ranges_ok INVALID_HCI_COMMAND_PARAMETERS); [discriminate|exact E]|].
  destruct (N.ltb_spec 500 (smax * (lat + 1))); [discriminate|]. destruct (N.leb_spec (tmo / 2) (interval (cp e) * smax * (lat + 1))); [discriminate|].
  destruct (N.leb_spec smax cont); [discriminate|]. auto.
Qed.

Lemma central_request s m smin smax lat cont tmo : Roles s -> up (cen s) = true ->
  exists s' st ev, step s (Host Central m (SubrateRequest smin smax lat cont tmo)) = Some (s', st, ev) /\
  (st = SUCCESS -> cp (cen s') = CParams (interval (cp (cen s))) smax cont lat tmo /\ acceptable (cen s') = Subrate smin smax lat cont tmo /\
     1 <= smin <= smax /\ cont < smax /\ smax * (lat + 1) <= 500 /\ timeout_allows (interval (cp (cen s))) smax lat tmo) /\
  (st <> SUCCESS -> s' = s /\ ev = []).
Proof.
  intros R U. unfold step, do_command. rewrite U, (r_cen s R). cbn [negb].
  destruct (negb (check_subrate_request (cen s) smin smax lat cont tmo =? SUCCESS)) eqn:C.
  - eexists _, _, _. split; [reflexivity|]. rewrite negb_true_iff, N.eqb_neq in C. split; [congruence|]. intros _. rewrite app_nil_r. destruct s. auto.
  - eexists _, _, _. split; [reflexivity|]. split; [|congruence]. intros _. split; [reflexivity|]. split; [reflexivity|].
    destruct (check_ok _ _ _ _ _ _ C) as (X & Y & Z & W). unfold timeout_allows. set (x := interval (cp (cen s)) * smax * (lat + 1)) in *. clearbody x. lia.
Qed.

Definition sane (a : subrate) : Prop := 1 <= sub_min a <= sub_max a /\ sub_max a <= 500.
Definition req_sane (p : pdu) : Prop := match p with SubrateReq fmin fmax _ _ _ => 1 <= fmin <= fmax | _ => True end.
Record Sane (s : system) : Prop := { sa_acc : sane (acceptable (cen s)); sa_req : Forall req_sane (to_cen s) }.

Lemma command_acc m e c e' st ps ev : do_command m e c = (e', st, ps, ev) -> sane (acceptable e) -> sane (acceptable e').
Proof.
  intros H S. destruct c; command_cases H; try exact S. unfold sane. cbn.
  match goal with E : negb (check_subrate_request _ _ _ _ _ _ =? SUCCESS) = false |- _ => apply check_ok in E end. lia.
Qed.
Lemma command_req m e c e' st ps ev : do_command m e c = (e', st, ps, ev) -> Forall req_sane ps.
Proof.
  intros H. destruct c; command_cases H; repeat constructor; cbn;
  match goal with E : negb (check_subrate_request _ _ _ _ _ _ =? SUCCESS) = false |- _ => apply check_ok in E end; lia.
Qed.
Lemma receive_acc m e p e' ps ev : do_receive m e p = Some (e', ps, ev) -> acceptable e' = acceptable e /\ Forall req_sane ps.
Proof. intros H. destruct p; receive_cases H; split; try reflexivity; repeat constructor. Qed.
Lemma step_sane s o s' st ev : Sane s -> step s o = Some (s', st, ev) -> Sane s'.
Proof.
  intros [A B] H. step_cases H.
  - constructor; cbn; [exact (command_acc _ _ _ _ _ _ _ D A)|exact B].
  - constructor; cbn; [exact A|]. apply Forall_app. split; [exact B|exact (command_req _ _ _ _ _ _ _ D)].
  - constructor; [exact A|]. rewrite T. exact B.
  - destruct (receive_acc _ _ _ _ _ _ D) as [X _]. constructor; cbn; [rewrite X; exact A|rewrite ?T in B; now inversion B].
  - constructor; assumption.
  - destruct (receive_acc _ _ _ _ _ _ D) as [_ X]. constructor; cbn; [exact A|]. now apply Forall_app.
Qed.
Lemma history_sane c p i lat tmo h s : sane (s_subrate c) -> history (connected c p i lat tmo) h s -> Sane s.
Proof. intros S. induction 1; [constructor; [exact S|constructor]|eapply step_sane; eassumption]. Qed.

Lemma accepted_request s m fmin fmax lat cont tmo rest : Roles s -> Sane s -> up (cen s) = true -> to_cen s = SubrateReq fmin fmax lat cont tmo :: rest ->
  let a := acceptable (cen s) in
  exists s' ev, step s (Deliver Central m) = Some (s', SUCCESS, ev) /\
  ((cp (cen s') = cp (cen s) /\ to_per s' = to_per s ++ [SubrateInd INVALID_LMP_OR_LL_PARAMETERS 0 0 0 0] /\ ev = []) \/
   exists f l c t, cp (cen s') = CParams (interval (cp (cen s))) f c l t /\ to_per s' = to_per s ++ [SubrateInd SUCCESS f l c t] /\
     fmin <= f <= fmax /\ sub_min a <= f <= sub_max a /\ c = N.min (N.max cont (sub_continuation a)) (f - 1) /\
     l <= lat /\ l <= sub_latency a /\ t = N.min tmo (sub_timeout a)).
Proof.
  intros R [SA SR] U T a. rewrite T in SR. inversion SR as [|x y Q _]; subst. cbn in Q. unfold sane in SA. fold a in SA.
  unfold step. rewrite T. unfold do_receive. rewrite U, (r_cen s R). cbn [negb]. destruct (subrate_acceptable (cen s) fmin fmax lat tmo) eqn:C; cbn [negb].
  - eexists _, _. split; [reflexivity|]. right. cbn [cen per to_per cp]. eexists _, _, _, _. split; [reflexivity|]. split; [reflexivity|]. fold a.
    unfold subrate_acceptable in C. fold a in C. rewrite !andb_true_iff, !negb_true_iff, orb_false_iff, !N.ltb_ge in C.
    destruct C as ((((C1 & C2) & C3) & C4) & _).
    assert (F : (N.min fmax (sub_max a) + 65535) mod 65536 = N.min fmax (sub_max a) - 1).
    { assert (1 <= N.min fmax (sub_max a) <= 500) by lia. set (f := N.min fmax (sub_max a)) in *. clearbody f.
      replace (f + 65535) with (f - 1 + 1 * 65536) by lia. rewrite N.mod_add by discriminate. apply N.mod_small. lia. }
    rewrite F. lia.
  - eexists _, _. split; [reflexivity|]. left. repeat split; reflexivity.
Qed.

(** A central refuses all the requests, if the interval never changes *)
Definition refusable (i : N) (p : pdu) : Prop := match p with SubrateReq fmin _ lat _ tmo => 2 * (i * fmin * (lat + 1)) < tmo | _ => True end.
Record Constant (i : N) (s : system) : Prop := {
  k_cen : interval (cp (cen s)) = i; k_per : interval (cp (per s)) = i;
  k_to_per : forallb no_update (to_per s) = true; k_to_cen : forallb no_update (to_cen s) = true; k_req : Forall (refusable i) (to_cen s) }.

Lemma command_const i m e c e' st ps ev x : keeps_interval (Host x m c) -> interval (cp e) = i -> do_command m e c = (e', st, ps, ev) ->
  interval (cp e') = i /\ forallb no_update ps = true /\ Forall (refusable i) ps.
Proof.
  intros K E H. destruct c; try (destruct x; contradiction); command_cases H; (split; [first [exact E|reflexivity]|]); (split; [reflexivity|]); repeat constructor; cbn.
  match goal with C : negb (check_subrate_request _ _ _ _ _ _ =? SUCCESS) = false |- _ => apply check_ok in C as (C1 & C2 & C3 & C4) end. rewrite E in C3.
  assert (smin <= smax) by lia. assert (i * smin * (lat + 1) <= i * smax * (lat + 1)) by (apply N.mul_le_mono_r, N.mul_le_mono_l; assumption).
  set (u := i * smin * (lat + 1)) in *. set (v := i * smax * (lat + 1)) in *. clearbody u v. lia.
Qed.
Lemma receive_const i m e p e' ps ev : no_update p = true -> interval (cp e) = i -> do_receive m e p = Some (e', ps, ev) ->
  interval (cp e') = i /\ forallb no_update ps = true /\ Forall (refusable i) ps.
Proof.
  intros K E H. destruct p; receive_cases H; try (split; [first [exact E|reflexivity]|split; [reflexivity|repeat constructor]]).
  cbn in K. match goal with X : (_ =? SUCCESS) = true |- _ => rewrite X in K; discriminate K end.
Qed.
Lemma step_const i s o s' st ev : Constant i s -> keeps_interval o -> step s o = Some (s', st, ev) -> Constant i s'.
Proof.
  intros [A B C1 C2 C3] K H. step_cases H.
  - destruct (command_const i _ _ _ _ _ _ _ _ K A D) as (X & Y & Z). constructor; cbn; try assumption. now rewrite forallb_app, C1, Y.
  - destruct (command_const i _ _ _ _ _ _ _ _ K B D) as (X & Y & Z). constructor; cbn; try assumption; [now rewrite forallb_app, C2, Y|now apply Forall_app].
  - constructor; rewrite ?T; assumption.
  - rewrite ?T in *. cbn in C2. apply andb_true_iff in C2 as [C2 C2']. inversion C3; subst.
    match goal with D : do_receive _ _ _ = _ |- _ => destruct (receive_const _ _ _ _ _ _ _ C2 eq_refl D) as (X & Y & Z) end.
    constructor; cbn; try assumption. now rewrite forallb_app, C1, Y.
  - constructor; rewrite ?T; assumption.
  - rewrite ?T in *. cbn in C1. apply andb_true_iff in C1 as [C1 C1'].
    destruct (receive_const i _ _ _ _ _ _ C1 B D) as (X & Y & Z).
    constructor; cbn; try assumption; [now rewrite forallb_app, C2, Y|now apply Forall_app].
Qed.
Lemma history_const c p i lat tmo h s : history (connected c p i lat tmo) h s -> (forall e, In e h -> keeps_interval (what e)) -> Constant i s.
Proof.
  intros H Q. induction H as [|h s o s' st ev H IH S]; [constructor; cbn; try reflexivity; constructor|].
  eapply step_const; [apply IH; intros x I; apply Q; now right| |exact S]. exact (Q _ (or_introl eq_refl)).
Qed.
Lemma always_refused c p i lat0 tmo0 h s m fmin fmax lat cont tmo rest : history (connected c p i lat0 tmo0) h s -> (forall e, In e h -> keeps_interval (what e)) ->
  up (cen s) = true -> to_cen s = SubrateReq fmin fmax lat cont tmo :: rest ->
  exists s', step s (Deliver Central m) = Some (s', SUCCESS, []) /\ cp (cen s') = cp (cen s) /\
    to_per s' = to_per s ++ [SubrateInd INVALID_LMP_OR_LL_PARAMETERS 0 0 0 0].
Proof.
  intros H Q U T. pose proof (history_const _ _ _ _ _ _ _ H Q) as K. pose proof (k_req _ _ K) as F. rewrite T in F. inversion F as [|x y X _]; subst. cbn in X.
  unfold step. rewrite T. unfold do_receive. rewrite U, (r_cen s (history_roles _ _ _ _ _ _ _ H)). cbn [negb].
  assert (C : subrate_acceptable (cen s) fmin fmax lat tmo = false).
  { unfold subrate_acceptable. rewrite (k_cen _ _ K). rewrite (proj2 (N.ltb_lt (i * fmin * (lat + 1) * 2) tmo)); [apply andb_false_r|]. lia. }
  rewrite C. cbn [negb]. eexists. split; [reflexivity|]. split; reflexivity.
Qed.
