(** Life of handles, streams and groups over whole histories. *)
From Verif Require Import Prelude Table Iso IsoSpec IsoProofs IsoMore.
Open Scope N_scope.
Ltac Zify.zify_post_hook ::= Z.div_mod_to_equations.

Lemma history_agrees ck (P : state -> op -> Prop) h s :
  (forall s o, P s o -> orderly s o) -> history ck P h s -> agrees (streams h) s.
Proof.
  intros PO H. induction H as [|h s e o s' out H IH Q E]; [split; [constructor|reflexivity]|].
  apply step_run in E as [E _]. cbn [streams]. eapply run_agrees; eauto. eapply history_inv; eauto.
Qed.

Lemma history_up ck (P : state -> op -> Prop) h s x :
  (forall s o, P s o -> orderly s o) -> history ck P h s -> up x h = conn s x.
Proof.
  intros PO H. induction H as [|h s e o s' out H IH Q E]; [reflexivity|].
  apply step_run in E as [E _]. cbn [up sent]. rewrite IH. eapply run_up; eauto. eapply history_inv; eauto.
Qed.

Lemma streams_range ck h s x v :
  history ck orderly h s -> lookup (streams h) x = Some v -> 0xe00 <= x <= 0xefd.
Proof.
  intros H L. pose proof (history_agrees _ _ _ _ (fun _ _ H => H) H) as [_ A]. rewrite A in L.
  destruct (lookup (conns s) x) as [c|] eqn:E; [|discriminate].
  pose proof (history_inv _ _ _ _ (fun _ _ H => H) H) as I. destruct (inv_cis _ I _ _ E) as (_ & R & _).
  apply range_in in R. lia.
Qed.

Lemma own_unique ck h s x y g c :
  history ck orderly h s -> lookup (streams h) x = Some (Own g c) -> lookup (streams h) y = Some (Own g c) -> x = y.
Proof.
  intros H Lx Ly. pose proof (history_agrees _ _ _ _ (fun _ _ H => H) H) as [_ A]. rewrite A in Lx, Ly.
  destruct (lookup (conns s) x) as [cx|] eqn:Ex; [|discriminate]. destruct (lookup (conns s) y) as [cy|] eqn:Ey; [|discriminate].
  pose proof (history_inv _ _ _ _ (fun _ _ H => H) H) as I. cbn in Lx, Ly. unfold proj in *.
  destruct (c_role cx) eqn:Rx; [|discriminate]. destruct (c_role cy) eqn:Ry; [|discriminate].
  injection Lx as Gx Cx. injection Ly as Gy Cy. eapply inv_unique; eauto; congruence.
Qed.

Lemma requested_fresh ck h s e o s' out a x g c :
  history ck orderly h s -> orderly s o -> step ck e s o = Ok s' out ->
  In (Event (CisRequested a x g c)) out -> lookup (streams h) x = None.
Proof.
  intros H O E IN. pose proof (history_agrees _ _ _ _ (fun _ _ H => H) H) as [_ A]. rewrite A.
  apply step_run in E as [E _].
  assert (Q : forall s s' out, deque s = Some (s', out) -> ~ In (Event (CisRequested a x g c)) out).
  { intros u v w D K. apply (deque_quiet _ _ _ D) in K. exact K. }
  destruct o; cbn [run] in E.
  - unfold set_cig, fail, answer in E. open E; injection E as <- <-; cbn in IN; intuition discriminate.
  - unfold set_cig_test, fail, answer in E. open E; injection E as <- <-; cbn in IN; intuition discriminate.
  - unfold remove_cig, fail, answer in E. open E; injection E as <- <-; cbn in IN; intuition discriminate.
  - unfold create_cis, fail, answer in E. open E; injection E as <- <-; try (cbn in IN; intuition discriminate).
    apply in_app_iff in IN as [IN|IN]; [|cbn in IN; intuition discriminate]. eapply Q in IN; [destruct IN|eauto].
  - unfold accept_cis, fail, answer in E. open E; injection E as <- <-; cbn in IN; intuition discriminate.
  - unfold reject_cis, fail, answer in E. open E; injection E as <- <-; cbn in IN; intuition discriminate.
  - unfold setup_path, fail, answer in E. open E; injection E as <- <-; cbn in IN; intuition discriminate.
  - unfold remove_path, fail, answer in E. destruct (lookup (conns s) h0).
    + destruct (if role_eqb _ _ then _ else _) in E. open E; injection E as <- <-; cbn in IN; intuition discriminate.
    + open E; injection E as <- <-; cbn in IN; intuition discriminate.
  - unfold disconnect, fail, answer in E. open E; injection E as <- <-; cbn in IN; intuition discriminate.
  - unfold create_big, fail, answer in E. open E; injection E as <- <-; cbn in IN; intuition discriminate.
  - unfold terminate_big, fail, answer in E. open E; injection E as <- <-; cbn in IN; intuition discriminate.
  - unfold add_link in E. open E; injection E as <- <-; destruct IN.
  - unfold remove_link, remove_acl in E. open E. injection E as <- <-.
    apply in_app_iff in IN as [IN|IN]; apply in_flat_map in IN as (u & _ & IN).
    + unfold lost in IN. destruct (optN_eqb _ _); [|destruct IN]. destruct (c_phase u); cbn in IN; intuition discriminate.
    + destruct (r_acl u =? h0); cbn in IN; intuition discriminate.
  - destruct p.
    + unfold cis_req in E. open E. injection E as <- <-. cbn in IN. destruct IN as [IN|[]]. injection IN as -> -> -> ->.
      apply new_cis_handle_spec in E0 as [_ ->]. reflexivity.
    + unfold cis_rsp in E. open E; injection E as <- <-; cbn [In] in IN; [|destruct IN].
      destruct IN as [IN|[IN|IN]]; try discriminate. eapply Q in IN; [destruct IN|eauto].
    + unfold cis_ind in E. open E; injection E as <- <-; cbn in IN; intuition discriminate.
    + unfold cis_terminate in E. open E; injection E as <- <-; cbn in IN; intuition discriminate.
    + unfold reject_ext in E. open E; injection E as <- <-; cbn [In] in IN; [|destruct IN].
      destruct IN as [IN|IN]; try discriminate. eapply Q in IN; [destruct IN|eauto].
    + discriminate.
Qed.

(** The group configured by Set CIG Parameters: its number and its streams. *)
Definition sets (o : op) : option (N * list entry) :=
  match o with
  | SetCig g _ _ _ _ _ l | SetCigTest g _ _ _ _ _ _ l => Some (g, l)
  | _ => None
  end.

Lemma sets_run ck e s o s' out g l :
  sets o = Some (g, l) -> run ck e s o = Some (s', out) -> accepted (Moment e o out) = true ->
  exists x hs, add_entries g l (with_cigs (put (cigs s) g x) s) = Some (s', hs) /\
    handles (Moment e o out) = hs /\ configurable x = true /\ is_configurable g s = true /\
    check_entries e g s l = None.
Proof.
  intros S H A. destruct o; try discriminate S; injection S as -> ->; cbn [run] in H.
  - unfold set_cig, fail, answer in H. open H; injection H as <- <-; try discriminate A.
    { exfalso. eapply check_entries_error; [eassumption|]. unfold accepted in A. cbn in A.
      rewrite orb_false_r in A. now apply N.eqb_eq in A. }
    eexists. eexists. split; [eassumption|]. cbn. rewrite app_nil_r. rewrite negb_false_iff in E. auto.
  - unfold set_cig_test, fail, answer in H. open H; injection H as <- <-; try discriminate A.
    { exfalso. eapply check_entries_error; [eassumption|]. unfold accepted in A. cbn in A.
      rewrite orb_false_r in A. now apply N.eqb_eq in A. }
    eexists. eexists. split; [eassumption|]. cbn. rewrite app_nil_r. rewrite negb_false_iff in E. auto.
Qed.

Lemma sets_fields o g l : sets o = Some (g, l) -> fields o -> byte g /\ Forall entry_fields l.
Proof. destruct o; try discriminate; intros [= -> ->]; cbn; tauto. Qed.

Lemma forall2_impl {A B} (P Q : A -> B -> Prop) l k :
  (forall a b, P a b -> Q a b) -> Forall2 P l k -> Forall2 Q l k.
Proof. intros H F. induction F; constructor; auto. Qed.

Lemma add_entries_handles g l : forall s s' hs,
  inv s -> byte g -> Forall entry_fields l -> has (cigs s) g = true ->
  add_entries g l s = Some (s', hs) ->
  (forall x c, lookup (conns s) x = Some c -> lookup (conns s') x = Some c) /\
  Forall2 (fun x n =>
    (lookup (conns s) x = None \/ option_map proj (lookup (conns s) x) = Some (Own g (n_id n))) /\
    option_map proj (lookup (conns s') x) = Some (Own g (n_id n))) hs l.
Proof.
  induction l as [|n l IH]; intros s s' hs I B F G H; cbn [add_entries] in H.
  - injection H as <- <-. auto.
  - inversion F as [|? ? F1 F2]; subst. open H. injection H as <- <-.
    set (w := with_configs (put (configs s) (key g (n_id n)) (n_config n)) s) in *.
    assert (I1 : inv w).
    { apply (inv_more s); auto. cbn. intros k X. rewrite has_put, X. apply orb_true_r. }
    assert (K1 : has (configs w) (key g (n_id n)) = true) by (cbn; now rewrite has_put, N.eqb_refl).
    destruct (new_cis_inv g (n_id n) w s0 n0 I1 B (proj1 F1) G K1 E) as (I2 & E2 & _).
    assert (K2 : has (cigs s0) g = true) by (rewrite E2; exact G).
    destruct (IH _ _ _ I2 B F2 K2 E0) as (A1 & A2).
    assert (X : (forall x c, lookup (conns s) x = Some c -> lookup (conns s0) x = Some c) /\
      (lookup (conns s) n0 = None \/ option_map proj (lookup (conns s) n0) = Some (Own g (n_id n))) /\
      option_map proj (lookup (conns s0) n0) = Some (Own g (n_id n)) /\
      (forall x, lookup (conns s) x = None -> x <> n0 -> lookup (conns s0) x = None)).
    { unfold new_cis in E. destruct (find _ _) as [d|] eqn:FD.
      - injection E as <- <-. apply find_values in FD as (k & L & FD); [|apply I1].
        destruct (inv_cis _ I1 _ _ L) as (EH & _). rewrite EH. apply is_cis_spec in FD as (D1 & D2 & D3).
        cbn [conns w with_configs] in L. unfold w. cbn [conns with_configs]. rewrite L. cbn.
        assert (proj d = Own g (n_id n)) as -> by (unfold proj; now rewrite D1, D2, D3). auto.
      - open E. injection E as <- <-. apply new_cis_handle_spec in E1 as [_ E1]. cbn [conns w with_configs] in E1.
        unfold w. cbn [conns with_configs with_conns]. split; [|split; [auto|split]].
        + intros x c L. rewrite lookup_put. destruct (N.eqb_spec x a) as [->|]; [congruence|exact L].
        + rewrite lookup_put, N.eqb_refl. reflexivity.
        + intros x L Ne. rewrite lookup_put. apply N.eqb_neq in Ne as ->. exact L. }
    destruct X as (X1 & X2 & X3 & X4). split; [auto|]. constructor.
    + split; [exact X2|]. destruct (lookup (conns s0) n0) as [d|] eqn:D; [|discriminate].
      now rewrite (A1 _ _ D).
    + eapply forall2_impl; [|exact A2]. intros x m [Y1 Y2]. split; [|exact Y2].
      destruct (lookup (conns s) x) as [d|] eqn:D; [|auto]. right. cbn.
      rewrite (X1 _ _ D) in Y1. destruct Y1 as [Y1|Y1]; [discriminate|exact Y1].
Qed.

Lemma set_cig_handles ck h s e o s' out g l :
  history ck orderly h s -> orderly s o -> step ck e s o = Ok s' out ->
  sets o = Some (g, l) -> accepted (Moment e o out) = true ->
  Forall2 (fun x n =>
    (lookup (streams h) x = None \/ lookup (streams h) x = Some (Own g (n_id n))) /\
    lookup (streams (Moment e o out :: h)) x = Some (Own g (n_id n))) (handles (Moment e o out)) l.
Proof.
  intros H O E S A.
  assert (H' : history ck orderly (Moment e o out :: h) s') by (econstructor; eauto).
  pose proof (history_agrees _ _ _ _ (fun _ _ H => H) H) as [_ A1].
  pose proof (history_agrees _ _ _ _ (fun _ _ H => H) H') as [_ A2].
  pose proof (history_inv _ _ _ _ (fun _ _ H => H) H) as I.
  apply step_run in E as [E _]. destruct (sets_run _ _ _ _ _ _ _ _ S E A) as (x & hs & K & HS & _).
  destruct (sets_fields _ _ _ S (proj1 O)) as [F1 F2]. rewrite HS.
  assert (I' : inv (with_cigs (put (cigs s) g x) s)).
  { apply (inv_more s); auto. cbn. intros k X. rewrite has_put, X. apply orb_true_r. }
  assert (G' : has (cigs (with_cigs (put (cigs s) g x) s)) g = true) by (cbn; now rewrite has_put, N.eqb_refl).
  destruct (add_entries_handles _ _ _ _ _ I' F1 F2 G' K) as [_ K2].
  eapply forall2_impl; [|exact K2]. intros y n [Y1 Y2]. rewrite A1, A2. split; [|exact Y2].
  destruct Y1 as [Y1|Y1]; [left; cbn in Y1; now rewrite Y1|right; exact Y1].
Qed.

(** Commands that name a stream *)
Definition names (o : op) : option N :=
  match o with AcceptCis x | RejectCis x _ | Disconnect x _ => Some x | _ => None end.

Lemma unknown_exact ck h s e o s' out x c st hs :
  history ck orderly h s -> step ck e s o = Ok s' out -> names o = Some x ->
  answers out = [(c, st, hs)] -> (st = UNKNOWN_CONNECTION <-> lookup (streams h) x = None).
Proof.
  intros H E N A. pose proof (history_agrees _ _ _ _ (fun _ _ H => H) H) as [_ A1]. rewrite A1.
  apply step_run in E as [E _].
  destruct o; try discriminate N; injection N as ->; cbn [run] in E.
  - unfold accept_cis, fail, answer in E. open E; injection E as <- <-; cbn in A; injection A as _ <- _;
      (split; intros X; [discriminate X || reflexivity|discriminate X || reflexivity]).
  - unfold reject_cis, fail, answer in E. open E; injection E as <- <-; cbn in A; injection A as _ <- _;
      (split; intros X; [discriminate X || reflexivity|discriminate X || reflexivity]).
  - unfold disconnect, fail, answer in E. open E; injection E as <- <-; cbn in A; injection A as _ <- _;
      (split; intros X; [discriminate X || reflexivity|discriminate X || reflexivity]).
Qed.

(** ** Groups *)

Lemma freeze_configurable l g : forall s s',
  freeze l s = Some s' ->
  is_configurable g s' = is_configurable g s && negb (existsb (fun r => r_cig r =? g) l).
Proof.
  induction l as [|r l IH]; intros s s' H; cbn [freeze] in H.
  - injection H as <-. cbn. now rewrite andb_true_r.
  - open H. rewrite (IH _ _ H). cbn [existsb]. unfold is_configurable. cbn [cigs with_cigs]. rewrite lookup_put, N.eqb_sym.
    destruct (N.eqb_spec (r_cig r) g) as [<-|]; cbn; [now rewrite andb_false_r|reflexivity].
Qed.

Lemma check_requests_handles s l : forall done rs,
  check_requests s l done = inr rs -> map r_handle rs = map r_handle done ++ map fst l /\
  (forall r, In r rs -> In r done \/ exists c, lookup (conns s) (r_handle r) = Some c /\ r_cig r = c_cig c /\
      c_phase c = Configuration).
Proof.
  induction l as [|[x a] l IH]; intros done rs H; cbn [check_requests] in H.
  - injection H as <-. cbn. rewrite app_nil_r. auto.
  - destruct (lookup (acls s) a) as [[]|]; try discriminate. destruct (lookup (conns s) x) as [c|] eqn:L; [|discriminate].
    destruct (negb _) eqn:P; [discriminate|]. destruct (existsb _ _); [discriminate|].
    apply IH in H as [H1 H2]. rewrite map_app in H1. cbn [map r_handle] in H1. rewrite <- app_assoc in H1. split; [exact H1|].
    intros r R. destruct (H2 r R) as [K|K]; [|auto]. apply in_app_iff in K as [K|[<-|[]]]; [auto|]. right.
    exists c. cbn. rewrite negb_false_iff, phase_eqb_eq in P. auto.
Qed.

Lemma deque_groups s s' out : deque s = Some (s', out) -> cigs s' = cigs s /\ configs s' = configs s.
Proof. unfold deque. intros H. open H; injection H as <- <-; auto. Qed.

Lemma add_entries_groups g l : forall s s' hs, add_entries g l s = Some (s', hs) -> cigs s' = cigs s.
Proof.
  induction l as [|n l IH]; intros s s' hs H; cbn [add_entries] in H; [now injection H as <- <-|].
  open H. injection H as <- <-. rewrite (IH _ _ _ E0). unfold new_cis in E. open E; injection E as <- <-; reflexivity.
Qed.

(** Steps that leave the groups alone *)
Lemma groups_kept ck e s o s' out :
  run ck e s o = Some (s', out) ->
  (sets o = None \/ accepted (Moment e o out) = false) ->
  (forall l, o <> CreateCis l \/ accepted (Moment e o out) = false) ->
  (forall g, o <> RemoveCig g \/ accepted (Moment e o out) = false) ->
  cigs s' = cigs s /\ configs s' = configs s.
Proof.
  intros H A B C. pose proof (run_replies _ _ _ _ _ _ H) as R. unfold replies in R.
  destruct (command o) as [c|] eqn:CO.
  - destruct R as (st & hs & R1 & R2). destruct (accepted_answer e o _ _ _ _ R1) as [R3 R4].
    destruct (accepted (Moment e o out)) eqn:AC.
    2:{ destruct R2 as [-> _]; auto. intros ->. discriminate. }
    destruct A as [A|A]; [|discriminate].
    destruct o; try discriminate CO; try discriminate A; cbn [run] in H.
    + destruct (C g) as [K|K]; congruence.
    + destruct (B l) as [K|K]; congruence.
    + unfold accept_cis, fail in H. open H; injection H as <- <-; auto.
    + unfold reject_cis, fail in H. open H; injection H as <- <-; auto.
    + unfold setup_path, fail in H. open H; injection H as <- <-; auto.
    + unfold remove_path, fail in H. destruct (lookup (conns s) h).
      * destruct (if role_eqb _ _ then _ else _) in H. open H; injection H as <- <-; auto.
      * open H; injection H as <- <-; auto.
    + unfold disconnect, fail in H. destruct (lookup (conns s) h) eqn:L; [|injection H as <- <-; auto].
      open H; injection H as <- <-; auto; destruct (role_eqb _ _); unfold set_phase; rewrite ?L; auto.
    + unfold create_big, fail in H. open H; injection H as <- <-; auto.
    + unfold terminate_big, fail in H. open H; injection H as <- <-; auto.
  - destruct o; try discriminate CO; cbn [run] in H.
    + unfold add_link in H. open H. injection H as <- <-. auto.
    + unfold remove_link, remove_acl in H. open H. injection H as <- <-. auto.
    + destruct p.
      * unfold cis_req in H. open H. injection H as <- <-. auto.
      * unfold cis_rsp in H. open H; injection H as <- <-; auto.
        apply deque_groups in E3 as [-> ->]. unfold set_phase. rewrite E0. auto.
      * unfold cis_ind in H. open H; injection H as <- <-; auto.
      * unfold cis_terminate in H. open H; injection H as <- <-; auto.
      * unfold reject_ext in H. open H; injection H as <- <-; auto. apply deque_groups in E2 as [-> ->]. auto.
      * discriminate.
Qed.

Lemma history_frozen ck (P : state -> op -> Prop) h s g :
  (forall s o, P s o -> orderly s o) -> history ck P h s -> is_configurable g s = negb (frozen g h).
Proof.
  intros PO H. induction H as [|h s e o s' out H IH Q E]; [reflexivity|].
  pose proof (history_inv _ _ _ _ PO H) as I. pose proof (history_agrees _ _ _ _ PO H) as [_ A].
  apply step_run in E as [E _]. cbn [frozen].
  destruct (accepted (Moment e o out)) eqn:AC.
  2:{ assert (is_configurable g s' = is_configurable g s) as ->.
      { destruct (groups_kept _ _ _ _ _ _ E) as [G _]; auto. unfold is_configurable. now rewrite G. }
      rewrite IH. cbn [what]. destruct o; cbn; rewrite ?orb_false_r, ?andb_true_r; reflexivity. }
  destruct (sets o) as [[g' l]|] eqn:S.
  - destruct (sets_run _ _ _ _ _ _ _ _ S E AC) as (x & hs & K & _ & X1 & X2 & _).
    apply add_entries_groups in K. unfold is_configurable. rewrite K. cbn [cigs with_cigs]. rewrite lookup_put.
    assert (match what (Moment e o out) with
            | CreateCis l => frozen g h || true && existsb (fun e0 => stands_for g (streams h) (fst e0)) l
            | RemoveCig g' => frozen g h && negb (true && (g' =? g))
            | _ => frozen g h end = frozen g h) as ->.
    { destruct o; try discriminate S; reflexivity. }
    destruct (N.eqb_spec g g') as [->|]; [|exact IH]. rewrite X1, <- IH. symmetry. exact X2.
  - destruct o; try discriminate S; cbn [what];
      try (assert (is_configurable g s' = is_configurable g s) as ->; [|exact IH];
           destruct (groups_kept _ _ _ _ _ _ E) as [G _]; auto;
           [intros; left; discriminate|intros; left; discriminate|]; unfold is_configurable; now rewrite G).
    + cbn [run] in E. unfold remove_cig, fail, answer in E. open E; injection E as <- <-; try discriminate AC.
      unfold is_configurable. cbn [cigs with_conns with_configs with_cigs]. rewrite lookup_erase, (N.eqb_sym g0 g).
      destruct (g =? g0); cbn; [now rewrite andb_false_r|]. rewrite andb_true_r. exact IH.
    + cbn [run] in E. unfold create_cis, fail, answer in E. open E; injection E as <- <-; try discriminate AC.
      { exfalso. eapply check_requests_error; [eassumption|]. unfold accepted in AC. cbn in AC.
        rewrite orb_false_r in AC. now apply N.eqb_eq in AC. }
      match goal with K : deque _ = Some _ |- _ => apply deque_groups in K as [DQ _]; cbn in DQ end.
      match goal with K : freeze _ _ = Some _ |- _ => apply freeze_configurable with (g := g) in K; rename K into FR end.
      unfold is_configurable at 1 in FR. unfold is_configurable at 1. rewrite DQ, FR, IH.
      cbn [andb]. rewrite negb_orb. f_equal. f_equal.
      match goal with K : check_requests _ _ _ = inr _ |- _ => apply check_requests_handles in K as [C1 C2] end. cbn in C1.
      clear - C1 C2 A I. revert l C1. induction l0 as [|r rs IHr]; intros l C1.
      * destruct l; [reflexivity|discriminate].
      * destruct l as [|[x a] l]; [discriminate|]. cbn in C1. injection C1 as C0 C1. cbn [existsb fst].
        rewrite (IHr (fun r K => C2 r (or_intror K)) l C1). f_equal.
        destruct (C2 r (or_introl eq_refl)) as [[]|(d & D1 & D2 & D3)]. rewrite C0 in D1.
        unfold stands_for. rewrite A, D1. cbn. rewrite own_of_proj, D2.
        destruct (inv_cis _ I _ _ D1) as (_ & _ & _ & _ & PR & _). unfold phase_role in PR. rewrite D3 in PR.
        now rewrite PR.
Qed.
