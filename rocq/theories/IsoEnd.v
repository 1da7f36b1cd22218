(** Group removal, establishment, data paths, broadcast groups. *)
From Verif Require Import Prelude Table Iso IsoSpec IsoProofs IsoMore IsoLife IsoSafe IsoParams.
Open Scope N_scope.
Ltac Zify.zify_post_hook ::= Z.div_mod_to_equations.

Lemma run_deterministic ck P h s s' : history ck P h s -> history ck P h s' -> s = s'.
Proof.
  intros H. revert s'. induction H as [|h s e o t out H IH Q E]; intros s' H'.
  - inversion H'. reflexivity.
  - inversion H' as [|h2 s2 e2 o2 t2 out2 H2 Q2 E2]; subst. apply IH in H2. subst s2. congruence.
Qed.

(** ** Reconfiguring and removing groups *)

Lemma frozen_refused ck h s e o s' out g l :
  history ck orderly h s -> step ck e s o = Ok s' out -> sets o = Some (g, l) -> frozen g h = true ->
  exists c, command o = Some c /\ out = [Event (Answer c COMMAND_DISALLOWED [])].
Proof.
  intros H E S F. pose proof (history_frozen _ _ _ _ g (fun _ _ H => H) H) as K. rewrite F in K. cbn in K.
  apply step_run in E as [E _]. destruct o; try discriminate S; injection S as -> ->; cbn [run] in E.
  - unfold set_cig in E. rewrite K in E. injection E as <- <-. cbn. eauto.
  - unfold set_cig_test in E. rewrite K in E. injection E as <- <-. cbn. eauto.
Qed.

Definition one_way (n : entry) : Prop := max_sdu_cp (n_config n) = 0 \/ max_sdu_pc (n_config n) = 0.

Lemma check_entries_disallowed e g s l : check_entries e g s l = Some COMMAND_DISALLOWED -> exists n, In n l /\ one_way n.
Proof.
  induction l as [|n l IH]; cbn [check_entries]; [discriminate|]. destruct (check_entry e g s n) eqn:C.
  - intros [= ->]. exists n. split; [now left|]. unfold check_entry in C.
    destruct (match find _ _ with Some _ => _ | None => _ end) as [u v]. unfold one_way.
    open C; try discriminate C; rewrite andb_true_iff, N.eqb_eq in *; tauto.
  - intros H. destruct (IH H) as (m & M1 & M2). exists m. split; [now right|exact M2].
Qed.

Lemma disallowed_reason ck h s e o s' out g l c hs :
  history ck orderly h s -> step ck e s o = Ok s' out -> sets o = Some (g, l) ->
  answers out = [(c, COMMAND_DISALLOWED, hs)] -> frozen g h = true \/ exists n, In n l /\ one_way n.
Proof.
  intros H E S A. pose proof (history_frozen _ _ _ _ g (fun _ _ H => H) H) as K.
  destruct (frozen g h); [auto|]. right. cbn in K.
  apply step_run in E as [E _]. destruct o; try discriminate S; injection S as -> ->; cbn [run] in E.
  - unfold set_cig in E. rewrite K in E. cbn [negb] in E. unfold fail, answer in E.
    open E; injection E as <- <-; cbn in A; try discriminate A. injection A as _ -> _.
    eapply check_entries_disallowed; eauto.
  - unfold set_cig_test in E. rewrite K in E. cbn [negb] in E. unfold fail, answer in E.
    open E; injection E as <- <-; cbn in A; try discriminate A. injection A as _ -> _.
    eapply check_entries_disallowed; eauto.
Qed.

(** A group whose streams are in use or waiting is frozen. *)
Definition busy (s : state) : Prop :=
  (forall x c, lookup (conns s) x = Some c -> c_role c = CENTRAL -> c_phase c <> Configuration ->
     is_configurable (c_cig c) s = false) /\
  (forall r, In r (queue s) -> is_configurable (r_cig r) s = false).

Lemma busy_put s h c d :
  busy s -> lookup (conns s) h = Some d -> c_role c = c_role d -> c_cig c = c_cig d ->
  (c_phase c <> Configuration -> c_phase d <> Configuration) -> busy (with_conns (put (conns s) h c) s).
Proof.
  intros [B1 B2] L R C P. split; [|exact B2]. intros x y. cbn [conns with_conns]. rewrite lookup_put.
  destruct (x =? h); [|apply B1]. intros [= <-] RC PH. rewrite C. change (is_configurable (c_cig d) s = false).
  eapply B1; eauto. congruence.
Qed.
Lemma busy_fresh s h c :
  busy s -> c_role c = PERIPHERAL \/ c_phase c = Configuration -> busy (with_conns (put (conns s) h c) s).
Proof.
  intros [B1 B2] K. split; [|exact B2]. intros x y. cbn [conns with_conns]. rewrite lookup_put.
  destruct (x =? h); [|apply B1]. intros [= <-] RC PH. destruct K; congruence.
Qed.
Lemma busy_erase s h : busy s -> busy (with_conns (erase (conns s) h) s).
Proof.
  intros [B1 B2]. split; [|exact B2]. intros x y. cbn [conns with_conns]. rewrite lookup_erase.
  destruct (x =? h); [discriminate|apply B1].
Qed.
Lemma busy_same s s' : busy s -> conns s' = conns s -> queue s' = queue s -> cigs s' = cigs s -> busy s'.
Proof. unfold busy, is_configurable. intros [B1 B2] -> -> ->. auto. Qed.

Lemma busy_deque s s' out : inv s -> busy s -> deque s = Some (s', out) -> busy s'.
Proof.
  intros I [B1 B2] H. unfold deque in H. destruct (queue s) as [|r q] eqn:Q; [injection H as <- <-; split; auto; now rewrite Q|].
  destruct (inv_requests _ I r) as (d & D1 & D2 & D3 & D4 & D5); [rewrite Q; now left|].
  open H. injection H as <- <-. rewrite D1 in E2. injection E2 as <-.
  split; [|intros k K; apply B2; now right].
  intros x y. cbn [conns with_conns with_queue]. rewrite lookup_put. destruct (x =? r_handle r); [|apply B1].
  intros [= <-] _ _. cbn [c_cig with_c_params with_c_phase with_c_acl]. rewrite D4. apply B2. now left.
Qed.

Lemma add_entries_busy g l : forall s s' hs, busy s -> add_entries g l s = Some (s', hs) -> busy s'.
Proof.
  induction l as [|n l IH]; intros s s' hs B H; cbn [add_entries] in H; [now injection H as <- <-|].
  open H. injection H as <- <-. eapply IH; [|exact E0]. unfold new_cis in E. open E; injection E as <- <-.
  - eapply busy_same; eauto.
  - eapply (busy_fresh (with_configs _ s)); [|now right]. eapply busy_same; eauto.
Qed.

Lemma run_busy ck e s o s' out :
  inv s -> orderly s o -> busy s -> run ck e s o = Some (s', out) -> busy s'.
Proof.
  intros I O B H. destruct o; cbn [run] in H.
  - destruct (accepted (Moment e (SetCig g cp pc fr latency_cp latency_pc l) out)) eqn:AC.
    2:{ pose proof (run_replies ck e s (SetCig g cp pc fr latency_cp latency_pc l) s' out H) as (st & hs & R1 & R2).
        destruct (accepted_answer e (SetCig g cp pc fr latency_cp latency_pc l) _ _ _ _ R1) as [R3 _].
        destruct R2 as [-> _]; [|exact B]. intros ->. rewrite AC in R3. discriminate. }
    destruct (sets_run ck e s (SetCig g cp pc fr latency_cp latency_pc l) s' out g l eq_refl H AC) as (x & hs & K & _ & K1 & K2 & _).
    eapply add_entries_busy; [|exact K]. destruct B as [B1 B2].
    assert (X : forall k, is_configurable k s = false -> is_configurable k (with_cigs (put (cigs s) g x) s) = false).
    { intros k Hk. unfold is_configurable. cbn [cigs with_cigs]. rewrite lookup_put.
      destruct (N.eqb_spec k g) as [->|]; [congruence|exact Hk]. }
    split; intros; apply X; eauto.
  - destruct (accepted (Moment e (SetCigTest g cp pc ft_c ft_p iso fr l) out)) eqn:AC.
    2:{ pose proof (run_replies ck e s (SetCigTest g cp pc ft_c ft_p iso fr l) s' out H) as (st & hs & R1 & R2).
        destruct (accepted_answer e (SetCigTest g cp pc ft_c ft_p iso fr l) _ _ _ _ R1) as [R3 _].
        destruct R2 as [-> _]; [|exact B]. intros ->. rewrite AC in R3. discriminate. }
    destruct (sets_run ck e s (SetCigTest g cp pc ft_c ft_p iso fr l) s' out g l eq_refl H AC) as (x & hs & K & _ & K1 & K2 & _).
    eapply add_entries_busy; [|exact K]. destruct B as [B1 B2].
    assert (X : forall k, is_configurable k s = false -> is_configurable k (with_cigs (put (cigs s) g x) s) = false).
    { intros k Hk. unfold is_configurable. cbn [cigs with_cigs]. rewrite lookup_put.
      destruct (N.eqb_spec k g) as [->|]; [congruence|exact Hk]. }
    split; intros; apply X; eauto.
  - unfold remove_cig, fail in H. destruct O as [_ O]. open H; injection H as <- <-; auto. destruct B as [B1 B2]. split.
    + intros x c. cbn [conns with_conns]. rewrite lookup_filter by apply I. destruct (lookup (conns s) x) as [d|] eqn:L; [|discriminate].
      cbn [snd]. destruct (negb _ || negb _) eqn:F; [|discriminate]. intros [= <-] R P.
      assert (c_cig d <> g) as Ne. { intros X. rewrite R, X, N.eqb_refl in F. discriminate. }
      unfold is_configurable. cbn [cigs with_conns with_configs with_cigs]. rewrite lookup_erase.
      apply N.eqb_neq in Ne as ->. eapply B1; eauto.
    + intros r R. cbn in R. pose proof (O r R) as Ne. unfold is_configurable. cbn [cigs with_conns with_configs with_cigs].
      rewrite lookup_erase. apply N.eqb_neq in Ne as ->. now apply B2.
  - unfold create_cis, fail in H. open H; injection H as <- <-; auto.
    assert (E' := E). apply check_requests_spec in E' as [C1 C2]; [|exact I|constructor|intros r []].
    pose proof (fun g => freeze_configurable _ g _ _ E2) as FC.
    apply freeze_spec in E2 as (F1 & F2 & F3 & F4 & F5 & F6 & F7).
    eapply busy_deque; [| |exact E3].
    + destruct I as [I1 I2 I3 I4 I5]. split; cbn; rewrite ?F1; auto.
      * intros k d L. destruct (I2 k d L) as (U1 & U2 & U3 & U4 & U5 & U6 & U7).
        repeat (split; [assumption|]). intros X. destruct (U7 X) as [V1 V2]. cbn. rewrite F3. split; [|exact V2].
        rewrite F7. exact V1.
      * intros r Hr. destruct (C2 r Hr) as (c0 & L & KK). exists c0. cbn. rewrite F1. auto.
    + destruct B as [B1 B2]. split.
      * intros x c L R P. cbn in L. rewrite F1 in L. change (is_configurable (c_cig c) a = false).
        rewrite FC, (B1 _ _ L R P). reflexivity.
      * intros r R. cbn in R. change (is_configurable (r_cig r) a = false). rewrite FC.
        assert (existsb (fun q => r_cig q =? r_cig r) l0 = true) as ->; [|apply andb_false_r].
        apply existsb_exists. exists r. split; [exact R|apply N.eqb_refl].
  - unfold accept_cis, fail in H. open H; injection H as <- <-; auto. eapply busy_put; eauto.
    rewrite negb_false_iff, phase_eqb_eq in E1. rewrite E1. discriminate.
  - unfold reject_cis, fail in H. open H; injection H as <- <-; auto. now apply busy_erase.
  - unfold setup_path, fail in H. open H; injection H as <- <-; auto.
    destruct (Bool.eqb _ _); eapply busy_put; eauto.
  - unfold remove_path, fail in H. destruct (lookup (conns s) h) eqn:L.
    + destruct (if role_eqb _ _ then _ else _) in H. open H; injection H as <- <-; auto. eapply busy_put; eauto.
    + open H; injection H as <- <-; auto; eapply busy_same; eauto.
  - unfold disconnect, fail in H. destruct (lookup (conns s) h) as [d|] eqn:L; [|now injection H as <- <-].
    open H; injection H as <- <-; auto; (destruct (role_eqb _ _); [|now apply busy_erase]); unfold set_phase; rewrite L;
      eapply busy_put; eauto; cbn; congruence.
  - unfold create_big, fail in H. open H; injection H as <- <-; auto; eapply busy_same; eauto.
  - unfold terminate_big, fail in H. open H; injection H as <- <-; auto; eapply busy_same; eauto.
  - unfold add_link in H. open H. injection H as <- <-. eapply busy_same; eauto.
  - unfold remove_link, remove_acl in H. open H. injection H as <- <-. destruct B as [B1 B2]. split.
    + intros x c. cbn [conns with_conns with_queue]. rewrite filter_conns_map, lookup_filter by apply I.
      destruct (lookup (conns s) x) as [d|] eqn:L; [|discriminate]. cbn [snd].
      destruct (_ || _); [|discriminate]. intros [= <-] R P. unfold unlink in *. destruct (optN_eqb _ _); [cbn in P; congruence|].
      exact (B1 _ _ L R P).
    + intros r R. cbn in R. apply filter_In in R as [R _]. exact (B2 r R).
  - destruct p.
    + unfold cis_req in H. open H. injection H as <- <-. apply busy_fresh; auto.
    + unfold cis_rsp in H. open H; injection H as <- <-; auto.
      assert (FC := E). apply find_cis_spec in FC as (d & L & W); [|exact I]. apply waiting_spec in W as (_ & _ & W).
      eapply busy_deque; [| |eassumption].
      * eapply set_phase_connected_inv; eauto.
      * unfold set_phase. rewrite L. eapply busy_put; eauto. intros _. rewrite W. discriminate.
    + unfold cis_ind in H. open H; injection H as <- <-; auto.
      assert (FC := E). apply find_cis_spec in FC as (d & L & W); [|exact I]. apply waiting_spec in W as (_ & W & W').
      rewrite E0 in L. injection L as ->. eapply busy_put; eauto. intros _. rewrite W'. discriminate.
    + unfold cis_terminate in H. open H; injection H as <- <-; auto. now apply busy_erase.
    + unfold reject_ext in H. open H; injection H as <- <-; auto.
      assert (FC := E0). apply find_cis_spec in FC as (d & L & W); [|exact I]. apply waiting_spec in W as (_ & W & W').
      rewrite E1 in L. injection L as ->.
      eapply busy_deque; [| |eassumption]; [now apply reset_inv|]. eapply busy_put; eauto; cbn; congruence.
    + discriminate.
Qed.

Lemma history_busy ck (P : state -> op -> Prop) h s :
  (forall s o, P s o -> orderly s o) -> history ck P h s -> busy s.
Proof.
  intros PO H. induction H as [|h s e o s' out H IH Q E]; [split; [discriminate|intros r []]|].
  apply step_run in E as [E _]. eapply run_busy; eauto. eapply history_inv; eauto.
Qed.

Lemma remove_group ck h s e g s' out :
  history ck orderly h s -> step ck e s (RemoveCig g) = Ok s' out ->
  exists st, answers out = [(OP_REMOVE_CIG, st, [])] /\
    (st = UNKNOWN_CONNECTION <-> group_of g h = None) /\
    (st = SUCCESS -> forall x c, lookup (streams h) x = Some (Own g c) -> up x h = false) /\
    (group_of g h <> None -> frozen g h = false -> st = SUCCESS).
Proof.
  intros H E. pose proof (history_inv _ _ _ _ (fun _ _ H => H) H) as I.
  pose proof (history_agrees _ _ _ _ (fun _ _ H => H) H) as [_ A].
  pose proof (history_groups _ _ _ _ g H) as G. pose proof (history_frozen _ _ _ _ g (fun _ _ H => H) H) as F.
  pose proof (history_busy _ _ _ _ (fun _ _ H => H) H) as [B _].
  apply step_run in E as [E _]. cbn [run] in E. unfold remove_cig, fail, answer in E.
  assert (GX : has (cigs s) g = match group_of g h with Some _ => true | None => false end).
  { rewrite has_lookup. destruct (lookup (cigs s) g); cbn in G; [destruct G as (o' & -> & _)|rewrite G]; reflexivity. }
  rewrite GX in E. destruct (group_of g h) as [o'|] eqn:GO; cbn [negb] in E.
  - destruct (existsb _ _) eqn:X; injection E as <- <-; eexists; (split; [reflexivity|]).
    + split; [split; discriminate|]. split; [discriminate|]. intros _ NF. exfalso. rewrite NF in F. cbn in F.
      apply existsb_exists in X as (c & IN & X). rewrite !andb_true_iff, role_eqb_eq, N.eqb_eq, negb_true_iff, phase_eqb_neq in X.
      destruct X as [[X1 X2] X3]. apply in_map_iff in IN as ([k d] & <- & IN). cbn in *.
      assert (L : lookup (conns s) k = Some d) by (apply in_lookup_nodup; [apply I|exact IN]).
      specialize (B _ _ L X1 X3). congruence.
    + split; [split; discriminate|]. split; [|auto]. intros _ x c L. rewrite (history_up _ _ _ _ x (fun _ _ H => H) H).
      rewrite A in L. unfold conn. destruct (lookup (conns s) x) as [d|] eqn:D; [|reflexivity].
      destruct (phase_eqb (c_phase d) Connected) eqn:P; [|reflexivity]. exfalso.
      assert (existsb (fun c => role_eqb (c_role c) CENTRAL && (c_cig c =? g) && negb (phase_eqb (c_phase c) Configuration)) (values (conns s)) = true); [|congruence].
      apply existsb_exists. exists d. split; [apply lookup_pair in D; unfold values; apply in_map_iff; exists (x, d); auto|].
      apply phase_eqb_eq in P. cbn in L. unfold proj in L. destruct (c_role d); [|discriminate]. injection L as -> _.
      rewrite P, N.eqb_refl. reflexivity.
  - injection E as <- <-. eexists. split; [reflexivity|]. split; [split; auto|]. split; [discriminate|congruence].
Qed.

(** ** Establishment *)

Lemma established_once ck h s e o s' out x r :
  history ck orderly h s -> orderly s o -> step ck e s o = Ok s' out ->
  In (Event (Established SUCCESS x r)) out -> up x h = false /\ up x (Moment e o out :: h) = true.
Proof.
  intros H O E IN. pose proof (history_inv _ _ _ _ (fun _ _ H => H) H) as I.
  rewrite (history_up _ _ (Moment e o out :: h) s' x (fun _ _ H => H)) by (econstructor; eauto).
  rewrite (history_up _ _ _ _ x (fun _ _ H => H) H).
  apply step_run in E as [E _]. destruct o; cbn [run] in E.
  - unfold set_cig, fail, answer in E. open E; injection E as <- <-; cbn in IN; intuition discriminate.
  - unfold set_cig_test, fail, answer in E. open E; injection E as <- <-; cbn in IN; intuition discriminate.
  - unfold remove_cig, fail, answer in E. open E; injection E as <- <-; cbn in IN; intuition discriminate.
  - unfold create_cis, fail, answer in E. open E; injection E as <- <-; try (cbn in IN; intuition discriminate).
    apply in_app_iff in IN as [IN|IN]; [|cbn in IN; intuition discriminate].
    eapply deque_quiet in IN; [destruct IN|eauto].
  - unfold accept_cis, fail, answer in E. open E; injection E as <- <-; cbn in IN; intuition discriminate.
  - unfold reject_cis, fail, answer in E. open E; injection E as <- <-; cbn in IN; intuition discriminate.
  - unfold setup_path, fail, answer in E. open E; injection E as <- <-; cbn in IN; intuition discriminate.
  - unfold remove_path, fail, answer in E. destruct (lookup (conns s) h0).
    + destruct (if role_eqb _ _ then _ else _) in E. open E; injection E as <- <-; cbn in IN; intuition discriminate.
    + open E; injection E as <- <-; cbn in IN; intuition discriminate.
  - unfold disconnect, fail, answer in E. open E; injection E as <- <-; cbn in IN; intuition discriminate.
  - unfold create_big, fail, answer in E. open E; injection E as <- <-; cbn in IN; intuition discriminate.
  - unfold terminate_big, fail, answer in E. open E; injection E as <- <-; cbn in IN; intuition discriminate.
  - unfold add_link in E. open E; injection E as <- <-; destruct IN.
  - destruct O as [_ O]. apply declared_reason in O. apply N.eqb_neq in O.
    unfold remove_link, remove_acl in E. open E. injection E as <- <-.
    apply in_app_iff in IN as [IN|IN]; apply in_flat_map in IN as (u & _ & IN).
    + unfold lost in IN. destruct (optN_eqb (c_acl u) h0); [|destruct IN]. destruct (c_phase u); cbn [In] in IN; intuition congruence.
    + destruct (r_acl u =? h0); cbn [In] in IN; intuition congruence.
  - destruct p.
    + unfold cis_req in E. open E. injection E as <- <-. cbn in IN. intuition discriminate.
    + unfold cis_rsp in E. open E; injection E as <- <-; cbn [In] in IN; [|destruct IN].
      destruct IN as [IN|[IN|IN]]; try discriminate; [|eapply deque_quiet in IN; [destruct IN|eauto]].
      injection IN as <- <-. apply find_cis_spec in E0 as (d & L & W); [|exact I]. apply waiting_spec in W as (_ & _ & W).
      assert (I' : inv (set_phase Connected n s)) by exact (set_phase_connected_inv _ _ _ I L W).
      match goal with K : deque _ = Some _ |- _ => apply (deque_conns _ _ _ n I') in K as [_ ->] end.
      unfold set_phase. rewrite L, conn_put, N.eqb_refl. unfold conn. rewrite L, W. auto.
    + unfold cis_ind in E. open E; injection E as <- <-; cbn [In] in IN; [|destruct IN].
      destruct IN as [IN|[]]. injection IN as <- <-.
      apply find_cis_spec in E0 as (d & L & W); [|exact I]. apply waiting_spec in W as (_ & _ & W).
      rewrite conn_put, N.eqb_refl. unfold conn. rewrite L, W. auto.
    + unfold cis_terminate in E. open E; injection E as <- <-; cbn in IN; intuition discriminate.
    + unfold reject_ext in E. open E; injection E as <- <-; cbn [In] in IN; [|destruct IN].
      destruct IN as [IN|IN]; try discriminate. eapply deque_quiet in IN; [destruct IN|eauto].
    + discriminate.
Qed.

Lemma up_known ck h s x : history ck orderly h s -> up x h = true -> lookup (streams h) x <> None.
Proof.
  intros H U. rewrite (history_up _ _ _ _ x (fun _ _ H => H) H) in U. unfold conn in U.
  pose proof (history_agrees _ _ _ _ (fun _ _ H => H) H) as [_ A]. rewrite A.
  destruct (lookup (conns s) x); [discriminate|discriminate U].
Qed.

(** ** The queue of requests *)

Definition stuck (s : state) : Prop :=
  queue s <> [] /\ forall k c, lookup (conns s) k = Some c -> c_role c = CENTRAL -> c_phase c <> PendingRsp.

Lemma find_cis_waiting pick P s : inv s -> (forall k c, lookup (conns s) k = Some c -> P c = false) -> find_cis pick P s = None.
Proof.
  intros I H. destruct (find_cis pick P s) as [x|] eqn:F; [|reflexivity].
  apply find_cis_spec in F as (c & L & W); [|exact I]. rewrite (H _ _ L) in W. discriminate.
Qed.

Lemma stuck_put s h c d :
  stuck s -> lookup (conns s) h = Some d -> c_role c = c_role d ->
  (c_phase c = PendingRsp -> c_phase d = PendingRsp) -> stuck (with_conns (put (conns s) h c) s).
Proof.
  intros [Q S] L R P. split; [exact Q|]. intros k y. cbn. rewrite lookup_put. destruct (k =? h); [|apply S].
  intros [= <-] C X. eapply S; eauto. congruence.
Qed.
Lemma stuck_fresh s h c : stuck s -> c_phase c <> PendingRsp -> stuck (with_conns (put (conns s) h c) s).
Proof.
  intros [Q S] P. split; [exact Q|]. intros k y. cbn. rewrite lookup_put. destruct (k =? h); [|apply S].
  intros [= <-] C. exact P.
Qed.
Lemma stuck_erase s h : stuck s -> stuck (with_conns (erase (conns s) h) s).
Proof.
  intros [Q S]. split; [exact Q|]. intros k y. cbn. rewrite lookup_erase. destruct (k =? h); [discriminate|apply S].
Qed.
Lemma stuck_same s s' : stuck s -> conns s' = conns s -> queue s' = queue s -> stuck s'.
Proof. unfold stuck. intros [Q S] -> ->. auto. Qed.

Lemma add_entries_stuck g l : forall s s' hs, stuck s -> add_entries g l s = Some (s', hs) -> stuck s'.
Proof.
  induction l as [|n l IH]; intros s s' hs B H; cbn [add_entries] in H; [now injection H as <- <-|].
  open H. injection H as <- <-. eapply IH; [|exact E0]. unfold new_cis in E. open E; injection E as <- <-.
  - eapply stuck_same; eauto.
  - eapply (stuck_fresh (with_configs _ s)); [|cbn; discriminate]. eapply stuck_same; eauto.
Qed.

Lemma run_stuck ck e s o s' out :
  inv s -> stuck s -> (forall a r, o <> RemoveLink a r) -> run ck e s o = Some (s', out) ->
  stuck s' /\ (forall l, o = CreateCis l -> accepted (Moment e o out) = false).
Proof.
  intros I B NL H. destruct o; cbn [run] in H; try (split; [|discriminate]).
  - unfold set_cig, fail in H. open H; injection H as <- <-; auto. eapply add_entries_stuck; [|eassumption]. eapply stuck_same; eauto.
  - unfold set_cig_test, fail in H. open H; injection H as <- <-; auto. eapply add_entries_stuck; [|eassumption]. eapply stuck_same; eauto.
  - unfold remove_cig, fail in H. open H; injection H as <- <-; auto. destruct B as [B1 B2]. split; [exact B1|].
    intros k c. cbn [conns with_conns]. rewrite lookup_filter by apply I. destruct (lookup (conns s) k) as [d|] eqn:L; [|discriminate].
    destruct (_ || _); [|discriminate]. intros [= <-]. eapply B2; eauto.
  - unfold create_cis, fail in H. assert (BQ := B). destruct BQ as [BQ _]. destruct (queue s) eqn:Q; [congruence|].
    open H; injection H as <- <-; (split; [exact B|]).
    + intros l' _. unfold accepted. cbn. rewrite orb_false_r. apply N.eqb_neq. eapply check_requests_error; eauto.
    + reflexivity.
  - unfold accept_cis, fail in H. open H; injection H as <- <-; auto. eapply stuck_put; eauto. discriminate.
  - unfold reject_cis, fail in H. open H; injection H as <- <-; auto. now apply stuck_erase.
  - unfold setup_path, fail in H. open H; injection H as <- <-; auto.
    destruct (Bool.eqb _ _); eapply stuck_put; eauto.
  - unfold remove_path, fail in H. destruct (lookup (conns s) h) eqn:L.
    + destruct (if role_eqb _ _ then _ else _) in H. open H; injection H as <- <-; auto. eapply stuck_put; eauto.
    + open H; injection H as <- <-; auto; eapply stuck_same; eauto.
  - unfold disconnect, fail in H. destruct (lookup (conns s) h) as [d|] eqn:L; [|now injection H as <- <-].
    open H; injection H as <- <-; auto; (destruct (role_eqb _ _); [|now apply stuck_erase]); unfold set_phase; rewrite L;
      eapply stuck_put; eauto; cbn; congruence.
  - unfold create_big, fail in H. open H; injection H as <- <-; auto; eapply stuck_same; eauto.
  - unfold terminate_big, fail in H. open H; injection H as <- <-; auto; eapply stuck_same; eauto.
  - unfold add_link in H. open H. injection H as <- <-. eapply stuck_same; eauto.
  - now elim (NL h reason).
  - assert (W : forall pick acl, find_cis pick (waiting acl CENTRAL PendingRsp) s = None).
    { intros k a. apply find_cis_waiting; [exact I|]. intros x c L. destruct (waiting a CENTRAL PendingRsp c) eqn:W; [|reflexivity].
      apply waiting_spec in W as (_ & W1 & W2). destruct B as [_ B]. elim (B _ _ L W1 W2). }
    destruct p.
    + unfold cis_req in H. open H. injection H as <- <-. apply stuck_fresh; auto. discriminate.
    + unfold cis_rsp in H. rewrite W in H. now injection H as <- <-.
    + unfold cis_ind in H. open H; injection H as <- <-; auto. eapply stuck_put; eauto. discriminate.
    + unfold cis_terminate in H. open H; injection H as <- <-; auto. now apply stuck_erase.
    + unfold reject_ext in H. rewrite W in H. open H. now injection H as <- <-.
    + discriminate.
Qed.

Lemma stuck_forever ck h s k s' :
  history ck orderly h s -> stuck s -> history ck orderly (k ++ h) s' ->
  (forall m a r, In m k -> what m <> RemoveLink a r) ->
  stuck s' /\ forall m l, In m k -> what m = CreateCis l -> accepted m = false.
Proof.
  intros H S. revert s'. induction k as [|m k IH]; intros s' K NL.
  - cbn in K. rewrite <- (run_deterministic _ _ _ _ _ H K). split; [exact S|intros m l []].
  - cbn in K. inversion K as [|h2 s2 e2 o2 t2 out2 K2 Q2 E2]; subst.
    destruct (IH s2 K2) as [S2 A2]; [intros; apply NL; now right|].
    apply step_run in E2 as [E2 _].
    destruct (run_stuck _ _ _ _ _ _ (history_inv _ _ _ _ (fun _ _ H => H) K2) S2 (fun a r => NL _ a r (or_introl eq_refl)) E2) as [S3 A3].
    split; [exact S3|]. intros m l [<-|M] W; [|eapply A2; eauto]. cbn in W. exact (A3 l W).
Qed.
