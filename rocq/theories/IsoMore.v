(** What the host knows of its streams agrees with the state of the link layer. *)
From Verif Require Import Prelude Table Iso IsoSpec IsoProofs.
Open Scope N_scope.
Ltac Zify.zify_post_hook ::= Z.div_mod_to_equations.

Definition proj (c : cis) : stream :=
  match c_role c with
  | CENTRAL => Own (c_cig c) (c_cis c)
  | PERIPHERAL => Theirs (match c_acl c with Some a => a | None => 0 end) (c_cig c) (c_cis c)
  end.

Definition agrees (t : table stream) (s : state) : Prop :=
  NoDup (keys t) /\ forall x, lookup t x = option_map proj (lookup (conns s) x).

Definition conn (s : state) (x : N) : bool :=
  match lookup (conns s) x with Some c => phase_eqb (c_phase c) Connected | None => false end.

(** ** Answers *)

Definition quiet (out : list output) : Prop :=
  forall o, In o out -> match o with Send _ _ => True | _ => False end.
Lemma quiet_answers out : quiet out -> answers out = [].
Proof.
  unfold quiet, answers. induction out as [|o out IH]; intros Q; [reflexivity|]. cbn.
  pose proof (Q o (or_introl eq_refl)). destruct o; [destruct H|]. apply IH. intros; apply Q; now right.
Qed.
Lemma quiet_change x b out : quiet out -> fold_left (change x) out b = b.
Proof.
  unfold quiet. revert b. induction out as [|o out IH]; intros b Q; [reflexivity|]. cbn.
  pose proof (Q o (or_introl eq_refl)). destruct o; [destruct H|]. apply IH. intros; apply Q; now right.
Qed.
Lemma quiet_announce t out : quiet out -> fold_left announce out t = t.
Proof.
  unfold quiet. revert t. induction out as [|o out IH]; intros b Q; [reflexivity|]. cbn.
  pose proof (Q o (or_introl eq_refl)). destruct o; [destruct H|]. apply IH. intros; apply Q; now right.
Qed.

Lemma deque_quiet s s' out : deque s = Some (s', out) -> quiet out.
Proof.
  unfold deque. intros H. open H; injection H as <- <-; intros o; cbn; intuition; subst; exact I.
Qed.

Definition replies (o : op) (s s' : state) (out : list output) : Prop :=
  match command o with
  | Some c => exists st hs, answers out = [(c, st, hs)] /\
      (st <> SUCCESS -> s' = s /\ out = [Event (Answer c st [])])
  | None => answers out = []
  end.

Lemma answers_app a b : answers (a ++ b) = answers a ++ answers b.
Proof. apply flat_map_app. Qed.

Lemma replied_fail c st s s' out : fail c st s = Some (s', out) ->
  exists st' hs, answers out = [(c, st', hs)] /\ (st' <> SUCCESS -> s' = s /\ out = [Event (Answer c st' [])]).
Proof. intros [= <- <-]. exists st, []. auto. Qed.

Ltac reply H :=
  first [ exact (replied_fail _ _ _ _ _ H)
        | injection H as <- <-; exists SUCCESS; eexists; split; [reflexivity|intros K; now elim K] ].

Lemma run_replies ck e s o s' out : run ck e s o = Some (s', out) -> replies o s s' out.
Proof.
  intros H. unfold replies. destruct o; cbn [command run] in *.
  - unfold set_cig in H. open H; reply H.
  - unfold set_cig_test in H. open H; reply H.
  - unfold remove_cig in H. open H; reply H.
  - unfold create_cis in H. open H; try (reply H).
    injection H as <- <-. exists SUCCESS, []. split; [|intros K; now elim K].
    rewrite answers_app, (quiet_answers l1) by (eapply deque_quiet; eauto). reflexivity.
  - unfold accept_cis in H. open H; reply H.
  - unfold reject_cis in H. open H; reply H.
  - unfold setup_path in H. open H; reply H.
  - unfold remove_path in H. destruct (lookup (conns s) h).
    + destruct (if role_eqb _ _ then _ else _) in H. open H; reply H.
    + open H; reply H.
  - unfold disconnect in H. open H; reply H.
  - unfold create_big in H. open H; reply H.
  - unfold terminate_big in H. open H; reply H.
  - unfold add_link in H. open H. injection H as <- <-. reflexivity.
  - unfold remove_link in H. open H. injection H as <- <-. rewrite answers_app.
    assert (X : forall A (f : A -> list output) l, (forall x, answers (f x) = []) -> answers (flat_map f l) = []).
    { intros A f l Y. induction l; [reflexivity|]. cbn [flat_map]. rewrite answers_app, Y, IHl. reflexivity. }
    rewrite !X; [reflexivity| |].
    + intros r. destruct (_ =? _); reflexivity.
    + intros c. unfold lost. destruct (optN_eqb _ _); [|reflexivity]. destruct (c_phase c); reflexivity.
  - destruct p.
    + unfold cis_req in H. open H. injection H as <- <-. reflexivity.
    + unfold cis_rsp in H. open H; injection H as <- <-; [|reflexivity].
      cbn. apply quiet_answers. eapply deque_quiet; eauto.
    + unfold cis_ind in H. open H; injection H as <- <-; reflexivity.
    + unfold cis_terminate in H. open H; injection H as <- <-; reflexivity.
    + unfold reject_ext in H. open H; injection H as <- <-; [|reflexivity].
      cbn. apply quiet_answers. eapply deque_quiet; eauto.
    + discriminate.
Qed.

Lemma commands_answered ck P h s e o out s' :
  history ck P h s -> step ck e s o = Ok s' out ->
  match command o with
  | Some c => exists st hs, answers out = [(c, st, hs)] /\
      (st <> SUCCESS -> s' = s /\ out = [Event (Answer c st [])])
  | None => answers out = []
  end.
Proof. intros _ H. apply step_run in H as [H _]. exact (run_replies _ _ _ _ _ _ H). Qed.

Lemma check_entry_error e g s n st : check_entry e g s n = Some st -> st <> SUCCESS.
Proof.
  unfold check_entry. destruct (match find _ _ with Some _ => _ | None => _ end). intros H.
  open H; injection H as <-; discriminate.
Qed.
Lemma check_entries_error e g s l st : check_entries e g s l = Some st -> st <> SUCCESS.
Proof.
  induction l as [|n l IH]; cbn [check_entries]; [discriminate|].
  destruct (check_entry e g s n) eqn:E; [|exact IH]. intros [= <-]. eapply check_entry_error; eauto.
Qed.
Lemma check_requests_error s l : forall done st, check_requests s l done = inl st -> st <> SUCCESS.
Proof.
  induction l as [|[x a] l IH]; intros done st H; cbn [check_requests] in H; [discriminate|].
  destruct (lookup (acls s) a) as [[]|]; try (injection H as <-; discriminate).
  destruct (lookup (conns s) x); [|injection H as <-; discriminate].
  destruct (negb _); [injection H as <-; discriminate|]. destruct (existsb _ _); [injection H as <-; discriminate|].
  eauto.
Qed.

(** ** Handles *)

Lemma proj_same c d : c_role c = c_role d -> c_cig c = c_cig d -> c_cis c = c_cis d ->
  (c_role d = PERIPHERAL -> c_acl c = c_acl d) -> proj c = proj d.
Proof. unfold proj. intros -> -> -> H. destruct (c_role d); [reflexivity|]. now rewrite H. Qed.

Lemma agrees_put_same t s h c d :
  agrees t s -> lookup (conns s) h = Some d -> proj c = proj d -> agrees t (with_conns (put (conns s) h c) s).
Proof.
  intros [N A] L E. split; [exact N|]. intros x. cbn. rewrite lookup_put. destruct (N.eqb_spec x h) as [->|]; [|apply A].
  rewrite A, L. cbn. now rewrite E.
Qed.
Lemma agrees_put t s h c v :
  agrees t s -> proj c = v -> agrees (put t h v) (with_conns (put (conns s) h c) s).
Proof.
  intros [N A] E. split; [now apply nodup_put|]. intros x. cbn. rewrite !lookup_put.
  destruct (x =? h); [cbn; now rewrite E|apply A].
Qed.
Lemma agrees_erase t s h : agrees t s -> agrees (erase t h) (with_conns (erase (conns s) h) s).
Proof.
  intros [N A]. split; [now apply nodup_erase|]. intros x. cbn. rewrite !lookup_erase.
  destruct (x =? h); [reflexivity|apply A].
Qed.
Lemma agrees_same t s s' : agrees t s -> conns s' = conns s -> agrees t s'.
Proof. intros [N A] E. split; [exact N|]. rewrite E. exact A. Qed.

Lemma deque_conns s s' out x : inv s -> deque s = Some (s', out) ->
  option_map proj (lookup (conns s') x) = option_map proj (lookup (conns s) x) /\ conn s' x = conn s x.
Proof.
  intros I H. unfold deque in H. destruct (queue s) as [|r q] eqn:Q; [injection H as <- <-; auto|].
  destruct (inv_requests _ I r) as (d & D1 & D2 & D3 & D4 & D5); [rewrite Q; now left|].
  open H. injection H as <- <-. rewrite D1 in E2. injection E2 as <-.
  unfold conn. cbn [conns with_queue with_conns]. rewrite lookup_put.
  destruct (N.eqb_spec x (r_handle r)) as [->|]; [|auto].
  rewrite D1. cbn. split; [|now rewrite D3]. f_equal. apply proj_same; cbn; auto. rewrite D2. discriminate.
Qed.

Lemma agrees_deque t s s' out : inv s -> agrees t s -> deque s = Some (s', out) -> agrees t s'.
Proof.
  intros I [N A] H. split; [exact N|]. intros x. rewrite A. symmetry. apply (deque_conns _ _ _ x I H).
Qed.

Lemma new_cis_agrees g c s s' h t :
  inv s -> agrees t s -> new_cis g c CENTRAL s = Some (s', h) ->
  agrees (put t h (Own g c)) s' /\
  (lookup t h = Some (Own g c) \/ lookup t h = None) /\
  (forall x, conn s' x = conn s x).
Proof.
  intros I A H. unfold new_cis in H. destruct (find _ _) as [d|] eqn:F.
  - injection H as <- <-. apply find_values in F as (k & L & F); [|apply I].
    destruct (inv_cis _ I _ _ L) as (E & _). rewrite E. apply is_cis_spec in F as (F1 & F2 & F3).
    assert (T : lookup t k = Some (Own g c)).
    { destruct A as [_ A]. rewrite A, L. cbn. unfold proj. now rewrite F1, F2, F3. }
    split; [|split; auto]. split; [apply nodup_put; apply A|].
    intros x. rewrite lookup_put. destruct (N.eqb_spec x k) as [->|]; [|apply A].
    rewrite <- T. apply A.
  - open H. injection H as <- <-. apply new_cis_handle_spec in E as [_ E]. split; [now apply agrees_put|].
    split; [right; destruct A as [_ A]; rewrite A, E; reflexivity|].
    intros x. unfold conn. cbn. rewrite lookup_put. destruct (N.eqb_spec x a) as [->|]; [|reflexivity].
    now rewrite E.
Qed.

Lemma add_entries_agrees g l : forall s s' hs t,
  inv s -> byte g -> Forall entry_fields l -> has (cigs s) g = true -> agrees t s ->
  add_entries g l s = Some (s', hs) ->
  agrees (fold_left (fun t e => put t (fst e) (Own g (n_id (snd e)))) (combine hs l) t) s' /\
  length hs = length l /\ (forall x, conn s' x = conn s x).
Proof.
  induction l as [|n l IH]; intros s s' hs t I B F G A H; cbn [add_entries] in H.
  - injection H as <- <-. auto.
  - inversion F as [|? ? F1 F2]; subst. open H. injection H as <- <-.
    set (w := with_configs (put (configs s) (key g (n_id n)) (n_config n)) s) in *.
    assert (I1 : inv w).
    { apply (inv_more s); auto. cbn. intros k X. rewrite has_put, X. apply orb_true_r. }
    assert (A1 : agrees t w) by (eapply agrees_same; eauto; reflexivity).
    destruct (new_cis_agrees _ _ _ _ _ _ I1 A1 E) as (A2 & _ & C2).
    assert (K1 : has (configs w) (key g (n_id n)) = true) by (cbn; now rewrite has_put, N.eqb_refl).
    destruct (new_cis_inv g (n_id n) w s0 n0 I1 B (proj1 F1) G K1 E) as (I2 & E2 & _).
    assert (K2 : has (cigs s0) g = true) by (rewrite E2; exact G).
    destruct (IH _ _ _ _ I2 B F2 K2 A2 E0) as (A3 & L3 & C3).
    cbn [combine fold_left fst snd length]. split; [exact A3|]. split; [now rewrite L3|].
    intros x. rewrite C3, C2. reflexivity.
Qed.

Lemma accepted_answer e o out c st hs : answers out = [(c, st, hs)] ->
  accepted (Moment e o out) = (st =? SUCCESS) /\ handles (Moment e o out) = hs.
Proof.
  intros H. unfold accepted, handles. cbn [sent]. rewrite H. cbn. rewrite app_nil_r, orb_false_r. auto.
Qed.

Lemma learn_command e o out t :
  accepted (Moment e o out) = false -> command o <> None -> learn (Moment e o out) t = t.
Proof.
  intros A C. unfold learn. rewrite A. cbn [what]. destruct o; auto; cbn in C; congruence.
Qed.

Lemma own_of_proj g c : own_of g (proj c) = role_eqb (c_role c) CENTRAL && (c_cig c =? g).
Proof. unfold proj. destruct (c_role c); reflexivity. Qed.

Lemma peripheral_link s h c : inv s -> lookup (conns s) h = Some c -> c_role c = PERIPHERAL -> exists a, c_acl c = Some a.
Proof.
  intros I L R. destruct (inv_cis _ I _ _ L) as (_ & _ & _ & _ & P & A & _). unfold phase_role in P. unfold attached in A.
  destruct (c_phase c) eqn:E; try congruence; (destruct (c_acl c); [eauto|]; destruct A as [A _]; [discriminate|]; now elim A).
Qed.

Lemma theirs_on_proj s h c a : inv s -> lookup (conns s) h = Some c ->
  theirs_on a (proj c) = role_eqb (c_role c) PERIPHERAL && optN_eqb (c_acl c) a.
Proof.
  intros I L. unfold proj. destruct (c_role c) eqn:R; [reflexivity|].
  destruct (peripheral_link _ _ _ I L R) as (b & ->). reflexivity.
Qed.

Lemma run_agrees ck e s o s' out t :
  inv s -> orderly s o -> agrees t s -> run ck e s o = Some (s', out) -> agrees (learn (Moment e o out) t) s'.
Proof.
  intros I O A H. pose proof (run_replies _ _ _ _ _ _ H) as R. unfold replies in R.
  destruct (command o) as [c|] eqn:C.
  - destruct R as (st & hs & R1 & R2). destruct (accepted_answer e o _ _ _ _ R1) as [R3 R4].
    destruct (st =? SUCCESS) eqn:ST.
    2:{ rewrite learn_command; auto; [|congruence]. apply N.eqb_neq in ST. destruct (R2 ST) as [-> _]. exact A. }
    unfold learn. rewrite R3, R4. cbn [what]. apply N.eqb_eq in ST. rewrite ST in R1. clear ST R2 R3 R4.
    destruct O as [F O]. destruct o; try discriminate C; cbn [run fields] in *.
    + destruct F as (F1 & _ & _ & _ & _ & F2 & _). unfold set_cig, fail, answer in H.
      open H; injection H as <- <-; try discriminate R1; cbn in R1.
      1:{ exfalso. eapply check_entries_error; [eassumption|congruence]. }
      match type of R1 with [(_, _, ?x)] = [(_, _, ?y)] => assert (x = y) as <- by congruence end.
      match goal with K : add_entries _ _ _ = Some _ |- _ => eapply add_entries_agrees in K as [K _]; eauto end.
      * apply (inv_more s); auto. cbn. intros k X. rewrite has_put, X. apply orb_true_r.
      * cbn. now rewrite has_put, N.eqb_refl.
    + destruct F as (F1 & _ & _ & _ & _ & _ & F2 & _). unfold set_cig_test, fail, answer in H.
      open H; injection H as <- <-; try discriminate R1; cbn in R1.
      1:{ exfalso. eapply check_entries_error; [eassumption|congruence]. }
      match type of R1 with [(_, _, ?x)] = [(_, _, ?y)] => assert (x = y) as <- by congruence end.
      match goal with K : add_entries _ _ _ = Some _ |- _ => eapply add_entries_agrees in K as [K _]; eauto end.
      * apply (inv_more s); auto. cbn. intros k X. rewrite has_put, X. apply orb_true_r.
      * cbn. now rewrite has_put, N.eqb_refl.
    + unfold remove_cig, fail, answer in H. open H; injection H as <- <-; try discriminate R1.
      destruct A as [N A]. split; [now apply nodup_filter|]. intros x. cbn [conns with_conns].
      rewrite !lookup_filter by (auto; apply I). rewrite A. destruct (lookup (conns s) x) as [d|]; [|reflexivity].
      cbn [option_map snd]. rewrite own_of_proj. destruct (role_eqb _ _), (_ =? _); reflexivity.
    + unfold create_cis, fail, answer in H. open H; injection H as <- <-; try discriminate R1.
      1:{ exfalso. cbn in R1. eapply check_requests_error; [eassumption|congruence]. }
      assert (E' := E). apply check_requests_spec in E' as [C1 C2]; [|exact I|constructor|intros r []].
      apply freeze_spec in E2 as (F1 & F2 & F3 & F4 & F5 & F6 & F7).
      eapply agrees_deque; [| |exact E3].
      * destruct I as [I1 I2 I3 I4 I5]. split; cbn; rewrite ?F1; auto.
        intros k d L. destruct (I2 k d L) as (U1 & U2 & U3 & U4 & U5 & U6 & U7).
        repeat (split; [assumption|]). intros X. destruct (U7 X) as [V1 V2]. cbn. rewrite F3. split; [|exact V2].
        rewrite F7. exact V1.
        intros r Hr. destruct (C2 r Hr) as (c0 & L & K). exists c0. cbn. rewrite F1. auto.
      * eapply agrees_same; [exact A|]. cbn. exact F1.
    + unfold accept_cis, fail, answer in H. open H; injection H as <- <-; try discriminate R1.
      eapply agrees_put_same; eauto.
    + unfold reject_cis, fail, answer in H. open H; injection H as <- <-; try discriminate R1. now apply agrees_erase.
    + unfold setup_path, fail, answer in H. open H; injection H as <- <-; try discriminate R1.
      * eapply agrees_put_same; eauto. destruct (Bool.eqb _ _); reflexivity.
      * eapply agrees_same; eauto; reflexivity.
    + unfold remove_path, fail, answer in H. destruct (lookup (conns s) h) eqn:L.
      * destruct (if role_eqb _ _ then _ else _) in H. open H; injection H as <- <-; try discriminate R1.
        eapply agrees_put_same; eauto.
      * open H; injection H as <- <-; try discriminate R1. eapply agrees_same; eauto; reflexivity.
    + unfold disconnect, fail, answer in H. destruct (lookup (conns s) h) as [d|] eqn:L; [|injection H as <- <-; discriminate R1].
      assert (T : lookup t h = Some (proj d)) by (destruct A as [_ A]; rewrite A, L; reflexivity).
      rewrite T. destruct (c_phase d); try (injection H as <- <-; discriminate R1); open H; injection H as <- <-;
        unfold proj in *; destruct (c_role d) eqn:RD; cbn [role_eqb];
        try (now apply agrees_erase); unfold set_phase; rewrite L;
        eapply agrees_put_same; eauto; unfold proj; cbn; now rewrite RD.
    + unfold create_big, fail, answer in H. open H; injection H as <- <-; try discriminate R1.
      eapply agrees_same; eauto; reflexivity.
    + unfold terminate_big, fail, answer in H. open H; injection H as <- <-; try discriminate R1.
      eapply agrees_same; eauto; reflexivity.
  - clear R. destruct o; try discriminate C; cbn [run] in H; unfold learn; cbn [what sent].
    + unfold add_link in H. open H. injection H as <- <-. eapply agrees_same; eauto; reflexivity.
    + unfold remove_link, remove_acl in H. open H. injection H as <- <-.
      destruct A as [N A]. split; [now apply nodup_filter|]. intros x. cbn [conns with_conns with_queue].
      rewrite filter_conns_map, !lookup_filter by (auto; apply I). rewrite A.
      destruct (lookup (conns s) x) as [d|] eqn:L; [|reflexivity].
      cbn [option_map snd]. rewrite (theirs_on_proj _ _ _ _ I L).
      destruct (optN_eqb (c_acl d) h) eqn:EA; [|rewrite andb_false_r, orb_true_r; unfold unlink; cbn [negb option_map]; now rewrite EA].
      rewrite andb_true_r, orb_false_r.
      destruct (c_role d) eqn:RD; cbn [role_eqb negb option_map]; [|reflexivity].
      unfold proj, unlink. rewrite EA. cbn. now rewrite RD.
    + destruct p.
      * unfold cis_req in H. open H. injection H as <- <-. cbn [fold_left announce]. now apply agrees_put.
      * unfold cis_rsp in H. open H; injection H as <- <-; [|exact A].
        cbn [fold_left announce]. rewrite quiet_announce by (eapply deque_quiet; eauto).
        assert (FC := E). apply find_cis_spec in FC as (d & L & W); [|exact I]. apply waiting_spec in W as (_ & _ & W).
        eapply agrees_deque; [|  |eassumption].
        -- eapply set_phase_connected_inv; eauto.
        -- unfold set_phase. rewrite L. eapply agrees_put_same; eauto.
      * unfold cis_ind in H. open H; injection H as <- <-; [|exact A]. cbn [fold_left announce].
        eapply agrees_put_same; eauto.
      * unfold cis_terminate in H. open H; injection H as <- <-; [|exact A]. cbn [fold_left announce].
        now apply agrees_erase.
      * unfold reject_ext in H. open H; injection H as <- <-; [|exact A].
        cbn [fold_left announce]. rewrite quiet_announce by (eapply deque_quiet; eauto).
        assert (FC := E0). apply find_cis_spec in FC as (d & L & W); [|exact I]. apply waiting_spec in W as (_ & W & _).
        eapply agrees_deque; [|  |eassumption].
        -- apply reset_inv; auto. rewrite E1 in L. now injection L as ->.
        -- eapply agrees_put_same; [exact A|exact E1|reflexivity].
      * discriminate.
Qed.

(** ** Connections *)

Lemma fold_change_none x b out :
  (forall o, In o out -> change x b o = b) -> fold_left (change x) out b = b.
Proof.
  induction out as [|o out IH]; intros H; cbn [fold_left]; [reflexivity|].
  rewrite H by now left. apply IH. intros; apply H; now right.
Qed.
Lemma fold_change_down x out :
  (forall o b, In o out -> change x b o = false \/ change x b o = b) ->
  (exists o, In o out /\ forall b, change x b o = false) ->
  forall b, fold_left (change x) out b = false.
Proof.
  induction out as [|o out IH]; intros H (w & Hin & W) b; [destruct Hin|]. cbn [fold_left].
  destruct Hin as [->|Hin].
  - rewrite W. clear IH. assert (forall o b, In o out -> change x b o = false \/ change x b o = b) as H' by (intros; apply H; now right).
    clear H W w b. induction out as [|o out IH]; cbn [fold_left]; [reflexivity|].
    destruct (H' o false (or_introl eq_refl)) as [->| ->]; apply IH; intros; apply H'; now right.
  - apply IH; [intros; apply H; now right|eauto].
Qed.

Lemma answers_change x b out :
  (forall o, In o out -> exists c st hs, o = Event (Answer c st hs)) -> fold_left (change x) out b = b.
Proof. intros H. apply fold_change_none. intros o Ho. destruct (H o Ho) as (c & st & hs & ->). reflexivity. Qed.

Lemma conn_put_same s h c d x :
  lookup (conns s) h = Some d -> phase_eqb (c_phase c) Connected = phase_eqb (c_phase d) Connected ->
  conn (with_conns (put (conns s) h c) s) x = conn s x.
Proof.
  intros L E. unfold conn. cbn. rewrite lookup_put. destruct (N.eqb_spec x h) as [->|]; [|reflexivity]. now rewrite L.
Qed.
Lemma conn_erase s h x : conn (with_conns (erase (conns s) h) s) x = negb (x =? h) && conn s x.
Proof. unfold conn. cbn. rewrite lookup_erase. destruct (x =? h); reflexivity. Qed.
Lemma conn_put s h c x :
  conn (with_conns (put (conns s) h c) s) x = if x =? h then phase_eqb (c_phase c) Connected else conn s x.
Proof. unfold conn. cbn. rewrite lookup_put. destruct (x =? h); reflexivity. Qed.

Lemma declared_reason reason : reason <> SUCCESS -> (if declared_error reason then reason else REMOTE_USER_TERMINATED) =? SUCCESS = false.
Proof. intros H. destruct (declared_error reason); [now apply N.eqb_neq|reflexivity]. Qed.

Lemma run_up ck e s o s' out x :
  inv s -> orderly s o -> run ck e s o = Some (s', out) -> fold_left (change x) out (conn s x) = conn s' x.
Proof.
  intros I O H. pose proof (run_replies _ _ _ _ _ _ H) as R. unfold replies in R.
  destruct (command o) as [c|] eqn:C.
  - destruct R as (st & hs & R1 & R2). destruct (N.eq_dec st SUCCESS) as [ST|ST].
    2:{ destruct (R2 ST) as [-> ->]. reflexivity. }
    rewrite ST in R1. clear ST R2.
    destruct O as [F O]. destruct o; try discriminate C; cbn [run fields] in *.
    + destruct F as (F1 & _ & _ & _ & _ & F2 & _). unfold set_cig, fail, answer in H.
      open H; injection H as <- <-; try reflexivity.
      assert (A : agrees (map (fun e => (fst e, proj (snd e))) (conns s)) (with_cigs (put (cigs s) g (Cig n cp pc 1 1 fr true)) s)).
      { split; [unfold keys; rewrite map_map; apply I|]. intros y. cbn.
        induction (conns s) as [|[u v] m IH]; [reflexivity|]. cbn. destruct (u =? y); auto. }
      match type of A with agrees _ ?w =>
        assert (I' : inv w) by (apply (inv_more s); auto; cbn; intros k X; rewrite has_put, X; apply orb_true_r);
        assert (G' : has (cigs w) g = true) by (cbn; now rewrite has_put, N.eqb_refl) end.
      match goal with K : add_entries _ _ _ = Some _ |- _ =>
        destruct (add_entries_agrees _ _ _ _ _ _ I' F1 F2 G' A K) as (_ & _ & A') end.
      cbn [fold_left change]. symmetry. apply A'.
    + destruct F as (F1 & _ & _ & _ & _ & _ & F2 & _). unfold set_cig_test, fail, answer in H.
      open H; injection H as <- <-; try reflexivity.
      assert (A : agrees (map (fun e => (fst e, proj (snd e))) (conns s)) (with_cigs (put (cigs s) g (Cig iso cp pc ft_c ft_p fr true)) s)).
      { split; [unfold keys; rewrite map_map; apply I|]. intros y. cbn.
        induction (conns s) as [|[u v] m IH]; [reflexivity|]. cbn. destruct (u =? y); auto. }
      match type of A with agrees _ ?w =>
        assert (I' : inv w) by (apply (inv_more s); auto; cbn; intros k X; rewrite has_put, X; apply orb_true_r);
        assert (G' : has (cigs w) g = true) by (cbn; now rewrite has_put, N.eqb_refl) end.
      match goal with K : add_entries _ _ _ = Some _ |- _ =>
        destruct (add_entries_agrees _ _ _ _ _ _ I' F1 F2 G' A K) as (_ & _ & A') end.
      cbn [fold_left change]. symmetry. apply A'.
    + unfold remove_cig, fail, answer in H. open H; injection H as <- <-; try reflexivity.
      cbn [fold_left change]. unfold conn. cbn [conns with_conns]. rewrite lookup_filter by apply I.
      destruct (lookup (conns s) x) as [d|] eqn:L; [|reflexivity]. cbn [snd].
      destruct (negb _ || negb _) eqn:B; [reflexivity|]. rewrite orb_false_iff, !negb_false_iff in B. destruct B as [B1 B2].
      destruct (phase_eqb (c_phase d) Connected) eqn:P; [|reflexivity]. exfalso.
      assert (existsb (fun c => role_eqb (c_role c) CENTRAL && (c_cig c =? g) && negb (phase_eqb (c_phase c) Configuration)) (values (conns s)) = true); [|congruence].
      apply existsb_exists. exists d. split; [apply lookup_pair in L; unfold values; apply in_map_iff; exists (x, d); auto|].
      rewrite B1, B2. apply phase_eqb_eq in P. rewrite P. reflexivity.
    + unfold create_cis, fail, answer in H. open H; injection H as <- <-; try reflexivity.
      assert (E' := E). apply check_requests_spec in E' as [C1 C2]; [|exact I|constructor|intros r []].
      apply freeze_spec in E2 as (F1 & F2 & F3 & F4 & F5 & F6 & F7).
      rewrite fold_left_app. rewrite (quiet_change _ _ l1) by (eapply deque_quiet; eauto). cbn [fold_left change].
      apply (deque_conns _ _ _ x) in E3.
      * destruct E3 as [_ ->]. unfold conn. cbn. now rewrite F1.
      * destruct I as [I1 I2 I3 I4 I5]. split; cbn; rewrite ?F1; auto.
        intros k d L. destruct (I2 k d L) as (U1 & U2 & U3 & U4 & U5 & U6 & U7).
        repeat (split; [assumption|]). intros X. destruct (U7 X) as [V1 V2]. cbn. rewrite F3. split; [|exact V2].
        rewrite F7. exact V1.
        intros r Hr. destruct (C2 r Hr) as (c0 & L & K). exists c0. cbn. rewrite F1. auto.
    + unfold accept_cis, fail, answer in H. open H; injection H as <- <-; try reflexivity.
      cbn [fold_left change]. symmetry. eapply conn_put_same; eauto.
      rewrite negb_false_iff, phase_eqb_eq in E1. rewrite E1. reflexivity.
    + unfold reject_cis, fail, answer in H. open H; injection H as <- <-; try reflexivity.
      cbn [fold_left change]. rewrite conn_erase. destruct (N.eqb_spec x h) as [->|]; [|reflexivity].
      rewrite negb_false_iff, phase_eqb_eq in E1. unfold conn. rewrite E, E1. reflexivity.
    + unfold setup_path, fail, answer in H. open H; injection H as <- <-; try reflexivity.
      cbn [fold_left change]. symmetry. eapply conn_put_same; eauto. destruct (Bool.eqb _ _); reflexivity.
    + unfold remove_path, fail, answer in H. destruct (lookup (conns s) h) eqn:L.
      * destruct (if role_eqb _ _ then _ else _) in H. open H; injection H as <- <-; try reflexivity.
        cbn [fold_left change]. symmetry. eapply conn_put_same; eauto.
      * open H; injection H as <- <-; reflexivity.
    + unfold disconnect, fail, answer in H. destruct (lookup (conns s) h) as [d|] eqn:L; [|injection H as <- <-; discriminate R1].
      destruct (c_phase d) eqn:P; try (injection H as <- <-; discriminate R1); open H; injection H as <- <-;
        cbn [fold_left change]; unfold set_phase; rewrite L; destruct (role_eqb _ _);
        rewrite ?conn_erase, ?conn_put, (N.eqb_sym h x); destruct (N.eqb_spec x h) as [->|]; reflexivity.
    + unfold create_big, fail, answer in H. open H; injection H as <- <-; reflexivity.
    + unfold terminate_big, fail, answer in H. open H; injection H as <- <-; reflexivity.
  - clear R. destruct o; try discriminate C; cbn [run] in H.
    + unfold add_link in H. open H. injection H as <- <-. reflexivity.
    + unfold remove_link, remove_acl in H. open H. injection H as <- <-. destruct O as [_ O].
      apply declared_reason in O. set (why := if declared_error reason then reason else REMOTE_USER_TERMINATED) in *.
      rewrite fold_left_app. rewrite (fold_change_none _ _ (flat_map _ (rev _))).
      2:{ intros u Hu. apply in_flat_map in Hu as (r & _ & Hu). destruct (r_acl r =? h); [|destruct Hu].
          destruct Hu as [<-|[]]. cbn. now rewrite O, andb_false_r. }
      assert (K : forall u b, In u (flat_map (lost h why) (values (conns s))) -> change x b u = false \/ change x b u = b).
      { intros u b Hu. apply in_flat_map in Hu as (d & _ & Hu). unfold lost in Hu.
        destruct (optN_eqb (c_acl d) h); [|destruct Hu]. destruct (c_phase d); try destruct Hu as [<-|[]]; try destruct Hu; cbn;
        rewrite ?O, ?andb_false_r; auto; destruct (c_handle d =? x); auto. }
      unfold conn at 2. cbn [conns with_conns with_queue]. rewrite filter_conns_map, lookup_filter by apply I.
      destruct (lookup (conns s) x) as [d|] eqn:L.
      2:{ cbn. unfold conn. rewrite L. apply fold_change_none. intros u Hu. destruct (K u false Hu); auto. }
      assert (HD : c_handle d = x) by (destruct (inv_cis _ I _ _ L); auto).
      cbn [snd]. unfold unlink. destruct (optN_eqb (c_acl d) h) eqn:EA.
      * replace (match option_map _ _ with Some _ => _ | None => _ end) with false
          by (destruct (_ || _); cbn; rewrite ?EA; reflexivity).
        destruct (phase_eqb (c_phase d) Connected) eqn:P.
        -- apply fold_change_down; [exact K|]. exists (Event (Disconnected x why)). split.
           ++ apply in_flat_map. exists d. split; [apply lookup_pair in L; apply in_map_iff; exists (x, d); auto|].
              unfold lost. rewrite EA. apply phase_eqb_eq in P. rewrite P, HD. now left.
           ++ intros b. cbn. now rewrite N.eqb_refl.
        -- unfold conn. rewrite L, P. apply fold_change_none. intros u Hu. destruct (K u false Hu); auto.
      * rewrite orb_true_r. cbn [option_map]. rewrite EA. unfold conn. rewrite L.
        apply fold_change_none. intros u Hu. apply in_flat_map in Hu as (d' & Hd & Hu). unfold lost in Hu.
        destruct (optN_eqb (c_acl d') h) eqn:EA'; [|destruct Hu].
        apply in_map_iff in Hd as ([y d''] & <- & Hd). cbn [snd] in *.
        assert (L' : lookup (conns s) y = Some d'') by (apply in_lookup_nodup; [apply I|exact Hd]).
        assert (HD' : c_handle d'' = y) by (destruct (inv_cis _ I _ _ L'); auto).
        destruct (c_phase d''); try destruct Hu as [<-|[]]; try destruct Hu; cbn; rewrite ?O, ?andb_false_r; auto.
        rewrite HD'. destruct (N.eqb_spec y x) as [->|]; [|reflexivity]. congruence.
    + destruct p.
      * unfold cis_req in H. open H. injection H as <- <-. cbn [fold_left change]. rewrite conn_put.
        apply new_cis_handle_spec in E as [_ E]. destruct (N.eqb_spec x a) as [->|]; [|reflexivity].
        unfold conn. now rewrite E.
      * unfold cis_rsp in H. open H; injection H as <- <-; [|reflexivity].
        assert (FC := E). apply find_cis_spec in FC as (d & L & W); [|exact I]. apply waiting_spec in W as (_ & _ & W).
        assert (I' : inv (set_phase Connected n s)) by (eapply set_phase_connected_inv; eauto).
        cbn [fold_left]. rewrite quiet_change by (eapply deque_quiet; eauto).
        match goal with K : deque _ = Some _ |- _ => apply (deque_conns _ _ _ x I') in K as [_ ->] end.
        unfold set_phase. rewrite L, conn_put. cbn. rewrite (N.eqb_sym n x). destruct (x =? n); reflexivity.
      * unfold cis_ind in H. open H; injection H as <- <-; [|reflexivity]. cbn [fold_left change].
        rewrite conn_put, (N.eqb_sym n x). destruct (x =? n); reflexivity.
      * unfold cis_terminate in H. open H; injection H as <- <-; [|reflexivity]. cbn [fold_left change].
        rewrite conn_erase, (N.eqb_sym n x). destruct (x =? n); reflexivity.
      * unfold reject_ext in H. open H; injection H as <- <-; [|reflexivity].
        assert (FC := E0). apply find_cis_spec in FC as (d & L & W); [|exact I]. apply waiting_spec in W as (_ & W & W').
        rewrite E1 in L. injection L as ->.
        assert (I' : inv (with_conns (put (conns s) n (with_c_params None (with_c_phase Configuration d))) s))
          by (apply reset_inv; auto).
        cbn [fold_left]. rewrite quiet_change by (eapply deque_quiet; eauto).
        match goal with K : deque _ = Some _ |- _ => apply (deque_conns _ _ _ x I') in K as [_ ->] end.
        rewrite conn_put. cbn. rewrite andb_false_r. destruct (N.eqb_spec x n) as [->|]; [|reflexivity].
        unfold conn. now rewrite E1, W'.
      * discriminate.
Qed.
