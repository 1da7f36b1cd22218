(** Proofs about the device lists. *)
From Verif Require Import Prelude Address Rpa Table LeTypes LeAdvertise LeLists LeScan LeInitiate LeHost LeTac LeFrame LeStep.
From Verif Require Import LeHistory LeListsSpec.
Open Scope N_scope.

Lemma accept_type_eqb_eq : forall a b, accept_type_eqb a b = true <-> a = b.
Proof. intros [] []; cbn; split; congruence. Qed.
Lemma peer_type_eqb_eq : forall a b, peer_type_eqb a b = true <-> a = b.
Proof. intros [] []; cbn; split; congruence. Qed.
Lemma is_anonymous_eq : forall t, is_anonymous t = true <-> t = ACCEPT_ANONYMOUS.
Proof. intros []; cbn; split; congruence. Qed.

Lemma accept_match_spec : forall t a t' a', accept_match t a (t', a') = true <-> same_device t' a' t a.
Proof.
  intros t a t' a'. unfold accept_match, same_device. cbn [fst snd].
  rewrite andb_true_iff, orb_true_iff, accept_type_eqb_eq, is_anonymous_eq, list_eqb_eq.
  split; intros [H1 H2]; split; auto; subst; tauto.
Qed.

Lemma same_device_trans : forall t a t1 a1 t2 a2, same_device t1 a1 t a -> same_device t2 a2 t a -> same_device t1 a1 t2 a2.
Proof. unfold same_device. intros t a t1 a1 t2 a2 [-> H1] [-> H2]. split; [reflexivity|]. intuition congruence. Qed.
Lemma same_device_sym : forall t a t1 a1, same_device t1 a1 t a -> same_device t a t1 a1.
Proof. unfold same_device. intros t a t1 a1 [-> H]. split; [reflexivity|]. intuition congruence. Qed.

Section WithController.
Variable aes : list N -> list N -> list N.
Variable rng : N -> N.
Variable cfg : config.
Notation step := (step aes rng cfg).
Notation history := (history aes rng cfg).

(** From histories to invariants *)
Lemma history_invariant : forall (P : le -> Prop),
  (forall addr, P (new_le addr)) ->
  (forall now s o s' st out, P s -> step now s o = Ok s' st out -> P s') ->
  forall h s, history h s -> P s.
Proof. intros P P0 PS h s H. induction H; eauto. Qed.

(** * Filter accept list *)

Definition count (t : accept_type) (a : list N) (l : list (accept_type * list N)) : nat :=
  length (filter (accept_match t a) l).

Lemma count_listed : forall t a s, (0 < count t a (accept s))%nat <-> listed s t a.
Proof.
  intros t a s. unfold count, listed. induction (accept s) as [|[t' a'] l IH]; cbn [filter length].
  - split; [lia|]. intros (t' & a' & [] & _).
  - destruct (accept_match t a (t', a')) eqn:E; cbn [length].
    + apply accept_match_spec in E. split; [|lia]. intros _. exists t', a'. split; [now left|exact E].
    + rewrite IH. split; intros (t2 & a2 & IN & D).
      * exists t2, a2. split; [now right|exact D].
      * destruct IN as [[= <- <-]|IN]; [|eauto]. apply accept_match_spec in D. congruence.
Qed.

Lemma count_app : forall t a l l', count t a (l ++ l') = (count t a l + count t a l')%nat.
Proof. intros t a l l'. unfold count. now rewrite filter_app, app_length. Qed.

Lemma count_remove_same : forall t' a' t a l l', same_device t' a' t a ->
  remove_first (accept_match t' a') l = Some l' -> count t a l' = pred (count t a l).
Proof.
  intros t' a' t a l l' D. revert l'. unfold count. induction l as [|[t2 a2] l IH]; cbn [remove_first filter]; intros l' H; [discriminate|].
  destruct (accept_match t' a' (t2, a2)) eqn:E.
  - injection H as <-. apply accept_match_spec in E.
    assert (accept_match t a (t2, a2) = true) as ->; [|reflexivity].
    apply accept_match_spec. apply same_device_sym in D. exact (same_device_trans _ _ _ _ _ _ E D).
  - destruct (remove_first _ l) as [l2|]; [|discriminate]. injection H as <-. cbn [filter].
    assert (accept_match t a (t2, a2) = false) as ->.
    { destruct (accept_match t a (t2, a2)) eqn:E2; [|reflexivity]. apply accept_match_spec in E2.
      assert (accept_match t' a' (t2, a2) = true); [|congruence]. apply accept_match_spec.
      exact (same_device_trans _ _ _ _ _ _ E2 D). }
    now apply IH.
Qed.

Lemma count_remove_none : forall t' a' t a l, same_device t' a' t a ->
  remove_first (accept_match t' a') l = None -> count t a l = 0%nat.
Proof.
  intros t' a' t a l D. unfold count. induction l as [|[t2 a2] l IH]; cbn [remove_first filter]; [reflexivity|].
  destruct (accept_match t' a' (t2, a2)) eqn:E; [discriminate|].
  destruct (remove_first _ l); [discriminate|]. intros _.
  assert (accept_match t a (t2, a2) = false) as ->.
  { destruct (accept_match t a (t2, a2)) eqn:E2; [|reflexivity]. apply accept_match_spec in E2.
    assert (accept_match t' a' (t2, a2) = true); [|congruence]. apply accept_match_spec.
    exact (same_device_trans _ _ _ _ _ _ E2 D). }
  now apply IH.
Qed.

Lemma count_remove_other : forall t' a' t a l l', ~ same_device t' a' t a ->
  remove_first (accept_match t' a') l = Some l' -> count t a l' = count t a l.
Proof.
  intros t' a' t a l l' D. revert l'. unfold count. induction l as [|[t2 a2] l IH]; cbn [remove_first filter]; intros l' H; [discriminate|].
  destruct (accept_match t' a' (t2, a2)) eqn:E.
  - injection H as <-. apply accept_match_spec in E.
    destruct (accept_match t a (t2, a2)) eqn:E2; [|reflexivity]. apply accept_match_spec in E2.
    exfalso. apply D. apply same_device_sym in E. apply same_device_sym in E2.
    exact (same_device_trans _ _ _ _ _ _ E E2) || (destruct E, E2; subst; split; intuition congruence).
  - destruct (remove_first _ l) as [l2|]; [|discriminate]. injection H as <-. cbn [filter].
    destruct (accept_match t a (t2, a2)); cbn [length]; now rewrite (IH _ eq_refl).
Qed.

Lemma step_accept : forall now s o s' st out, step now s o = Ok s' st out -> touches o PAccept = false -> accept s' = accept s.
Proof. intros now s o s' st out H T. exact (step_same _ _ _ _ _ _ _ _ _ H PAccept T). Qed.

Lemma accept_replay : forall h s, history h s -> forall t a n, accepted h t a n -> count t a (accept s) = n.
Proof.
  intros h s H. induction H as [addr|h s now o s' st out H IH S]; intros t a n A.
  - inversion A; subst; reflexivity.
  - inversion A as [| ? t' a' ? ? ? ? n' A' D | ? t' a' ? ? ? ? n' A' D | | | ? ? ? ? ? ? ? ? A' N1 N2 N3]; subst.
    + specialize (IH _ _ _ A'). cbn [LeHost.step run_command] in S. unfold add_accept_list, quiet in S.
      destruct (accept_list_busy s); [discriminate|]. destruct (_ <=? _); [discriminate|].
      injection S as <- <-. le_simpl. rewrite count_app, IH. unfold count at 1. cbn [filter].
      apply accept_match_spec in D. rewrite D. cbn [length]. lia.
    + specialize (IH _ _ _ A'). cbn [LeHost.step run_command] in S. unfold remove_accept_list, quiet in S.
      destruct (accept_list_busy s); [discriminate|].
      destruct (remove_first _ _) as [l|] eqn:R; injection S as <- <-; le_simpl; subst n'.
      * exact (count_remove_same _ _ _ _ _ _ D R).
      * rewrite (count_remove_none _ _ _ _ _ D R). reflexivity.
    + cbn [LeHost.step run_command] in S. unfold clear_accept_list, quiet in S.
      destruct (accept_list_busy s); [discriminate|]. injection S as <- <-. reflexivity.
    + cbn [LeHost.step run_command] in S. unfold reset, loud in S. injection S as <- <- <-. reflexivity.
    + specialize (IH _ _ _ A'). destruct (touches o PAccept) eqn:T; [|now rewrite (step_accept _ _ _ _ _ _ S T)].
      destruct o as [c|p|]; [|destruct p; discriminate|discriminate]. destruct c; try discriminate.
      * now elim N3.
      * cbn [LeHost.step run_command] in S. unfold clear_accept_list, quiet in S.
        destruct (accept_list_busy s); injection S as <- <- <-; [assumption|]. now elim (N2 eq_refl).
      * cbn [LeHost.step run_command] in S. unfold add_accept_list, quiet in S.
        destruct (accept_list_busy s); [injection S as <- <- <-; assumption|].
        destruct (_ <=? _); injection S as <- <- <-; [assumption|]. le_simpl.
        rewrite count_app, IH. unfold count. cbn [filter].
        destruct (accept_match t a (t0, a0)) eqn:E; cbn [length]; [|lia].
        apply accept_match_spec in E. elim (N1 t0 a0 (or_introl eq_refl) eq_refl E).
      * cbn [LeHost.step run_command] in S. unfold remove_accept_list, quiet in S.
        destruct (accept_list_busy s); [injection S as <- <- <-; assumption|].
        destruct (remove_first _ _) as [l|] eqn:R; injection S as <- <- <-; [|assumption]. le_simpl. rewrite <- IH.
        exact (count_remove_other _ _ _ _ _ _ (N1 t0 a0 (or_intror eq_refl) eq_refl) R).
Qed.

Lemma accepted_iff_listed : forall h s t a n, history h s -> accepted h t a n -> (listed s t a <-> (0 < n)%nat).
Proof. intros h s t a n H A. rewrite <- (accept_replay _ _ H _ _ _ A). now rewrite count_listed. Qed.

(** A history always determines the count *)
Lemma same_device_dec : forall t a t' a', same_device t a t' a' \/ ~ same_device t a t' a'.
Proof.
  intros t a t' a'. destruct (accept_match t' a' (t, a)) eqn:E.
  - left. now apply accept_match_spec.
  - right. intros D. apply accept_match_spec in D. congruence.
Qed.

Lemma accepted_total : forall h t a, exists n, accepted h t a n.
Proof.
  induction h as [|[now o st out] h IH]; intros t a; [eexists; apply accepted_none|].
  destruct (IH t a) as [n A].
  assert (forall P : Prop, (st = Some SUCCESS -> P) -> (st <> Some SUCCESS -> P) -> P) as CS.
  { intros P P1 P2. destruct st as [[]|]; try (apply P2; discriminate). now apply P1. }
  destruct o as [c|p|].
  2,3: exists n; apply accepted_other; [assumption|intros ? ? [E|E]; discriminate|discriminate|discriminate].
  destruct c; try (exists n; apply accepted_other; [assumption|intros ? ? [E|E]; discriminate|discriminate|discriminate]).
  - exists 0%nat. apply accepted_reset.
  - apply CS; intros E.
    + subst. exists 0%nat. apply accepted_clear.
    + exists n. apply accepted_other; [assumption|intros ? ? [E2|E2]; discriminate|auto|discriminate].
  - apply CS; intros E.
    + subst. destruct (same_device_dec t0 a0 t a) as [D|D].
      * exists (S n). now apply accepted_add.
      * exists n. apply accepted_other; [assumption| |discriminate|discriminate].
        intros t' a' [[= <- <-]|E2] _; [exact D|discriminate].
    + exists n. apply accepted_other; [assumption| |discriminate|discriminate]. intros t' a' _ E2. congruence.
  - apply CS; intros E.
    + subst. destruct (same_device_dec t0 a0 t a) as [D|D].
      * exists (pred n). now apply accepted_remove.
      * exists n. apply accepted_other; [assumption| |discriminate|discriminate].
        intros t' a' [E2|[= <- <-]] _; [discriminate|exact D].
    + exists n. apply accepted_other; [assumption| |discriminate|discriminate]. intros t' a' _ E2. congruence.
Qed.

Lemma remove_first_length : forall A (f : A -> bool) l l', remove_first f l = Some l' -> lenN l = lenN l' + 1.
Proof.
  induction l as [|x l IH]; cbn [remove_first]; intros l' H; [discriminate|].
  rewrite lenN_cons. destruct (f x); [injection H as <-; lia|].
  destruct (remove_first f l) as [l2|]; [|discriminate]. injection H as <-. rewrite lenN_cons, (IH _ eq_refl). lia.
Qed.

Ltac other H P T := rewrite (step_same _ _ _ _ _ _ _ _ _ H P T : _ = _).

Lemma accept_bounded : forall h s, history h s -> lenN (accept s) <= cfg_accept_size cfg.
Proof.
  apply history_invariant.
  - intros addr. cbn. apply N.le_0_l.
  - intros now s o s' st out I S. destruct (touches o PAccept) eqn:T; [|now rewrite (step_accept _ _ _ _ _ _ S T)].
    destruct o as [c|p|]; [|destruct p; discriminate|discriminate]. destruct c; try discriminate;
      cbn [LeHost.step run_command] in S.
    + unfold reset, loud in S. injection S as <- <- <-. apply N.le_0_l.
    + unfold clear_accept_list, quiet in S. destruct (accept_list_busy s); injection S as <- <- <-; [assumption|apply N.le_0_l].
    + unfold add_accept_list, quiet in S. destruct (accept_list_busy s); [injection S as <- <- <-; assumption|].
      destruct (N.leb_spec (cfg_accept_size cfg) (lenN (accept s))); injection S as <- <- <-; [assumption|]. le_simpl.
      rewrite lenN_app. change (lenN [(t, a)]) with 1. lia.
    + unfold remove_accept_list, quiet in S. destruct (accept_list_busy s); [injection S as <- <- <-; assumption|].
      destruct (remove_first _ _) as [l|] eqn:R; injection S as <- <- <-; [|assumption]. le_simpl.
      apply remove_first_length in R. lia.
Qed.

Lemma in_use_busy : forall s, accept_list_in_use s -> accept_list_busy s = true.
Proof.
  intros s H. unfold accept_list_busy. destruct H as [[E P]|[(h & x & IN & E & P)|[[E P]|[E P]]]].
  - rewrite E. destruct (l_policy _); try reflexivity. now elim P.
  - assert (existsb (fun kv => enabled (snd kv) && negb (all_devices (policy (snd kv)))) (sets s) = true) as ->.
    { apply existsb_exists. exists (h, x). split; [exact IN|]. cbn [snd]. rewrite E. destruct (policy x); try reflexivity. now elim P. }
    now rewrite !orb_true_r.
  - rewrite E. destruct P as [-> | ->]; cbn [scan_uses_list andb]; now rewrite !orb_true_r.
  - rewrite E, P. cbn [init_uses_list andb]. now rewrite !orb_true_r.
Qed.

Lemma accept_frozen : forall now s c, accept_list_in_use s -> changes_accept_list c ->
  step now s (Command c) = Ok s (Some COMMAND_DISALLOWED) [].
Proof.
  intros now s c U C. apply in_use_busy in U.
  destruct C as [->|[(t & a & ->)|(t & a & ->)]]; cbn [LeHost.step run_command];
    unfold clear_accept_list, add_accept_list, remove_accept_list, quiet; now rewrite U.
Qed.

Lemma accept_kept_in_use : forall now s o s' st out, accept_list_in_use s -> o <> Command Reset ->
  step now s o = Ok s' st out -> accept s' = accept s.
Proof.
  intros now s o s' st out U R S. destruct (touches o PAccept) eqn:T; [|exact (step_accept _ _ _ _ _ _ S T)].
  destruct o as [c|p|]; [|destruct p; discriminate|discriminate].
  assert (changes_accept_list c) as C.
  { unfold changes_accept_list. destruct c; try discriminate; eauto 6. now elim R. }
  rewrite (accept_frozen now s c U C) in S. injection S as <- <- <-. reflexivity.
Qed.

(** * Resolving list *)

Definition keys_of (l : list resolving_entry) := map ident l.

Definition res_ok (m : list (peer_type * list N * list N * list N)) : Prop :=
  NoDup (map (fun x => fst (fst x)) m)
  /\ NoDup (filter (fun k => negb (irk_is_zero k)) (map (fun x => snd (fst x)) m))
  /\ lenN m <= cfg_resolving_size cfg.

Lemma irk_is_zero_spec : forall k, irk_is_zero k = true <-> zero_key k.
Proof.
  intros k. unfold irk_is_zero, zero_key. rewrite forallb_forall, Forall_forall.
  split; intros H x X; apply N.eqb_eq; auto.
Qed.

Lemma nodup_app_one : forall A (l : list A) x, NoDup l -> ~ In x l -> NoDup (l ++ [x]).
Proof.
  induction l as [|y l IH]; intros x N X; cbn [app].
  - constructor; [intros []|constructor].
  - inversion N; subst. constructor.
    + rewrite in_app_iff. intros [I|[<-|[]]]; [contradiction|]. apply X. now left.
    + apply IH; [assumption|]. intros I. apply X. now right.
Qed.

Lemma remove_first_map : forall A B (f : A -> bool) (g : B -> bool) (m : A -> B) l l',
  (forall x, f x = g (m x)) -> remove_first f l = Some l' -> remove_first g (map m l) = Some (map m l').
Proof.
  intros A B f g m l l' E. revert l'. induction l as [|x l IH]; cbn [remove_first map]; intros l' H; [discriminate|].
  rewrite <- E. destruct (f x); [now injection H as <-|].
  destruct (remove_first f l) as [l2|]; [|discriminate]. injection H as <-. now rewrite (IH _ eq_refl).
Qed.

Lemma remove_first_incl : forall A (f : A -> bool) l l' x, remove_first f l = Some l' -> In x l' -> In x l.
Proof.
  induction l as [|y l IH]; cbn [remove_first]; intros l' x H X; [discriminate|].
  destruct (f y); [injection H as <-; now right|].
  destruct (remove_first f l) as [l2|]; [|discriminate]. injection H as <-.
  destruct X as [->|X]; [now left|right; eauto].
Qed.

Lemma remove_first_nodup_map : forall A B (f : A -> bool) (m : A -> B) l l',
  remove_first f l = Some l' -> NoDup (map m l) -> NoDup (map m l').
Proof.
  induction l as [|y l IH]; cbn [remove_first map]; intros l' H N; [discriminate|]. inversion N; subst.
  destruct (f y); [now injection H as <-|].
  destruct (remove_first f l) as [l2|] eqn:R; [|discriminate]. injection H as <-. cbn [map]. constructor; [|now apply IH].
  rewrite in_map_iff. intros (x & E & X). apply H2. rewrite in_map_iff. exists x. split; [exact E|].
  exact (remove_first_incl _ _ _ _ _ R X).
Qed.

Lemma remove_first_nodup_filter : forall A B (f : A -> bool) (m : A -> B) (g : B -> bool) l l',
  remove_first f l = Some l' -> NoDup (filter g (map m l)) -> NoDup (filter g (map m l')).
Proof.
  induction l as [|y l IH]; cbn [remove_first map filter]; intros l' H N; [discriminate|].
  destruct (f y).
  - injection H as <-. destruct (g (m y)); [now inversion N|exact N].
  - destruct (remove_first f l) as [l2|] eqn:R; [|discriminate]. injection H as <-. cbn [map filter].
    destruct (g (m y)); [|now apply IH]. inversion N; subst. constructor; [|now apply IH].
    rewrite filter_In, in_map_iff. intros ((x & E & X) & G). apply H1. rewrite filter_In, in_map_iff. split; [|exact G].
    exists x. split; [exact E|]. exact (remove_first_incl _ _ _ _ _ R X).
Qed.

Lemma is_identity_spec : forall k a e, is_identity k a e = true <-> identity e = (k, a).
Proof.
  intros k a e. unfold is_identity, identity. rewrite andb_true_iff, peer_type_eqb_eq, list_eqb_eq.
  split; [intros [-> ->]; reflexivity|]. intros H. now injection H as -> ->.
Qed.

Lemma step_resolving : forall now s o s' st out, step now s o = Ok s' st out -> touches o PResolving = false ->
  map ident (resolving s') = map ident (resolving s).
Proof. intros now s o s' st out H T. exact (step_same _ _ _ _ _ _ _ _ _ H PResolving T). Qed.

Lemma resolving_ok : forall h s, history h s -> res_ok (map ident (resolving s)).
Proof.
  apply history_invariant.
  - intros addr. repeat split; [constructor|constructor|apply N.le_0_l].
  - intros now s o s' st out I S. destruct (touches o PResolving) eqn:T; [|now rewrite (step_resolving _ _ _ _ _ _ S T)].
    destruct o as [c|p|]; [|destruct p; discriminate|discriminate]. destruct c; try discriminate;
      cbn [LeHost.step run_command] in S.
    + unfold reset, loud in S. injection S as <- <- <-. repeat split; [constructor|constructor|apply N.le_0_l].
    + unfold add_resolving_list, quiet in S. destruct (_ && _); [injection S as <- <- <-; assumption|].
      destruct (N.leb_spec (cfg_resolving_size cfg) (lenN (resolving s))) as [L|L]; [injection S as <- <- <-; assumption|].
      destruct (existsb _ _) eqn:EX; injection S as <- <- <-; [assumption|]. le_simpl.
      rewrite map_app. cbn [map]. destruct I as (I1 & I2 & I3).
      assert (forall e, In e (resolving s) -> is_identity k a e = false /\ (list_eqb (peer_irk e) pirk && negb (irk_is_zero pirk)) = false) as NEW.
      { intros e E. rewrite <- orb_false_iff. destruct (_ || _) eqn:O; [|reflexivity].
        assert (existsb (fun e => is_identity k a e || list_eqb (peer_irk e) pirk && negb (irk_is_zero pirk)) (resolving s) = true); [|congruence].
        apply existsb_exists. eauto. }
      repeat split.
      * rewrite map_app. cbn [map]. apply nodup_app_one; [exact I1|]. unfold ident. cbn [fst snd].
        rewrite in_map_iff. intros (x & E & X). rewrite in_map_iff in X. destruct X as (e & <- & X). cbn [fst] in E.
        destruct (NEW e X) as [N1 _]. assert (is_identity k a e = true); [|congruence]. now apply is_identity_spec.
      * rewrite map_app, filter_app. cbn [map filter].
        change (snd (fst (ident _))) with pirk.
        destruct (negb (irk_is_zero pirk)) eqn:Z; [|now rewrite app_nil_r]. apply nodup_app_one; [exact I2|].
        rewrite filter_In. intros [X _]. rewrite in_map_iff in X. destruct X as (x & E & X).
        rewrite in_map_iff in X. destruct X as (e & <- & X). cbn [fst snd] in E.
        destruct (NEW e X) as [_ N2]. unfold ident in E. cbn [fst snd peer_irk] in E. rewrite E, list_eqb_refl in N2. discriminate N2.
      * rewrite lenN_app. change (lenN [_]) with 1. unfold lenN in *. rewrite map_length in *. lia.
    + unfold remove_resolving_list, quiet in S. destruct (_ && _); [injection S as <- <- <-; assumption|].
      destruct (remove_first _ _) as [l|] eqn:R; injection S as <- <- <-; [|assumption]. le_simpl.
      destruct I as (I1 & I2 & I3). repeat split.
      * rewrite map_map in *. exact (remove_first_nodup_map _ _ _ _ _ _ R I1).
      * rewrite (map_map ident) in *. exact (remove_first_nodup_filter _ _ _ _ _ _ _ R I2).
      * apply remove_first_length in R. unfold lenN in *. rewrite map_length in *. lia.
    + unfold clear_resolving_list, quiet in S. destruct (_ && _); injection S as <- <- <-; [assumption|].
      repeat split; [constructor|constructor|apply N.le_0_l].
Qed.

Lemma stored_ident : forall l, map stored l = map ident l.
Proof. intros l. reflexivity. Qed.

Lemma resolving_identities_unique : forall h s, history h s -> NoDup (map identity (resolving s)).
Proof.
  intros h s H. destruct (resolving_ok _ _ H) as (I & _). rewrite map_map in I. exact I.
Qed.

Lemma nodup_pairs : forall (l : list (list N)) i j k, NoDup (filter (fun x => negb (irk_is_zero x)) l) ->
  nth_error l i = Some k -> nth_error l j = Some k -> ~ zero_key k -> i = j.
Proof.
  induction l as [|x l IH]; intros i j k N I J Z; [destruct i; discriminate|].
  assert (irk_is_zero k = false) as ZK.
  { destruct (irk_is_zero k) eqn:E; [|reflexivity]. now apply irk_is_zero_spec in E. }
  assert (forall n, nth_error l n = Some k -> In k (filter (fun x => negb (irk_is_zero x)) l)) as IN.
  { intros n E. apply filter_In. split; [exact (nth_error_In _ _ E)|now rewrite ZK]. }
  cbn [filter] in N. destruct i as [|i], j as [|j]; cbn [nth_error] in I, J.
  - reflexivity.
  - injection I as ->. rewrite ZK in N. cbn in N. inversion N; subst. elim H1. eauto.
  - injection J as ->. rewrite ZK in N. cbn in N. inversion N; subst. elim H1. eauto.
  - f_equal. destruct (negb (irk_is_zero x)); [inversion N; subst|]; eapply IH; eauto.
Qed.

Lemma resolving_keys_unique : forall h s i j e f, history h s ->
  nth_error (resolving s) i = Some e -> nth_error (resolving s) j = Some f ->
  peer_irk e = peer_irk f -> ~ zero_key (peer_irk e) -> i = j.
Proof.
  intros h s i j e f H E F K Z. destruct (resolving_ok _ _ H) as (_ & I & _). rewrite map_map in I.
  apply (nodup_pairs (map (fun x => snd (fst (ident x))) (resolving s)) i j (peer_irk e)); [exact I| | |exact Z].
  - exact (map_nth_error (fun x => snd (fst (ident x))) _ _ E).
  - rewrite K. exact (map_nth_error (fun x => snd (fst (ident x))) _ _ F).
Qed.

Lemma resolving_bounded : forall h s, history h s -> lenN (resolving s) <= cfg_resolving_size cfg.
Proof. intros h s H. destruct (resolving_ok _ _ H) as (_ & _ & I). unfold lenN in *. now rewrite map_length in I. Qed.

Lemma active_busy : forall s, active s -> resolving_list_busy s = true.
Proof.
  intros s H. unfold resolving_list_busy. destruct H as [->|[(h & x & IN & E)|[->| ->]]].
  - reflexivity.
  - assert (existsb (fun kv => enabled (snd kv)) (sets s) = true) as ->.
    { apply existsb_exists. exists (h, x). split; [exact IN|exact E]. }
    now rewrite !orb_true_r.
  - now rewrite !orb_true_r.
  - now rewrite !orb_true_r.
Qed.

Lemma resolving_frozen : forall now s c, resolving_on s = true -> active s -> changes_resolving_list c ->
  step now s (Command c) = Ok s (Some COMMAND_DISALLOWED) [].
Proof.
  intros now s c O A C. apply active_busy in A.
  destruct C as [->|[(k & a & p & l & ->)|(k & a & ->)]]; cbn [LeHost.step run_command];
    unfold clear_resolving_list, add_resolving_list, remove_resolving_list, quiet; now rewrite O, A.
Qed.

Lemma resolving_kept_active : forall now s o s' st out, resolving_on s = true -> active s -> o <> Command Reset ->
  step now s o = Ok s' st out -> map stored (resolving s') = map stored (resolving s) /\ resolving_on s' = true.
Proof.
  intros now s o s' st out O U R S. split.
  - destruct (touches o PResolving) eqn:T; [|exact (step_resolving _ _ _ _ _ _ S T)].
    destruct o as [c|p|]; [|destruct p; discriminate|discriminate].
    assert (changes_resolving_list c) as C.
    { unfold changes_resolving_list. destruct c; try discriminate; eauto 10. now elim R. }
    rewrite (resolving_frozen now s c O U C) in S. injection S as <- <- <-. reflexivity.
  - destruct (touches o PResolvingOn) eqn:T.
    + destruct o as [c|p|]; [|destruct p; discriminate|discriminate]. destruct c; try discriminate; [now elim R|].
      cbn [LeHost.step run_command] in S. unfold set_address_resolution, quiet in S.
      rewrite (active_busy s U) in S. injection S as <- <- <-. exact O.
    + rewrite (step_same _ _ _ _ _ _ _ _ _ S PResolvingOn T : resolving_on s' = resolving_on s). exact O.
Qed.

(** Contents of the resolving list *)
Lemma remove_first_in : forall A (f : A -> bool) (m : A -> bool) l l' x,
  remove_first f l = Some l' -> (forall y, f y = true -> m y = true) -> m x = false -> (In x l' <-> In x l).
Proof.
  intros A f m l l' x R F X. split; [exact (remove_first_incl _ _ _ _ _ R)|].
  revert l' R. induction l as [|y l IH]; cbn [remove_first]; intros l' R IN; [discriminate|].
  destruct (f y) eqn:E.
  - injection R as <-. destruct IN as [->|IN]; [apply F in E; congruence|exact IN].
  - destruct (remove_first f l) as [l2|]; [|discriminate]. injection R as <-.
    destruct IN as [->|IN]; [now left|right; now apply IH].
Qed.

Lemma remove_first_nodup_gone : forall A B (f : A -> bool) (m : A -> B) (v : B) l l' x,
  remove_first f l = Some l' -> NoDup (map m l) -> (forall y, f y = true <-> m y = v) -> In x l' -> m x <> v.
Proof.
  induction l as [|y l IH]; cbn [remove_first map]; intros l' x R N F X; [discriminate|]. inversion N; subst.
  destruct (f y) eqn:E.
  - injection R as <-. apply F in E. intros EX. apply H1. rewrite E, <- EX. now apply in_map.
  - destruct (remove_first f l) as [l2|] eqn:R2; [|discriminate]. injection R as <-.
    destruct X as [->|X]; [|eapply IH; eauto]. intros EX. apply F in EX. congruence.
Qed.

Lemma resolving_replay : forall h s, history h s -> forall x, resolving_holds h x <-> In x (map stored (resolving s)).
Proof.
  intros h s H. induction H as [addr|h s now o s' st out H IH S]; intros x.
  - split; [intros A; inversion A|intros []].
  - pose proof (resolving_identities_unique _ _ H) as U.
    destruct x as [[[k a] p] l].
    assert (forall t, touches o PResolving = t -> t = false \/ t = true) as TC by (intros []; auto).
    destruct (TC _ eq_refl) as [T|T]; clear TC.
    + unfold stored. fold ident. change (map _ (resolving s')) with (map ident (resolving s')).
      rewrite (step_resolving _ _ _ _ _ _ S T). rewrite <- (IH (k, a, p, l)).
      split; intros A.
      * inversion A; subst; [discriminate|assumption].
      * apply holds_still; [exact A|intros ->; discriminate|intros ->; discriminate|intros ->; discriminate].
    + destruct o as [c|q|]; [|destruct q; discriminate|discriminate].
      assert (forall st', Ok s (Some st') [] = Ok s' st out -> st' <> SUCCESS ->
         ~ (Command c = Command Reset) ->
         (resolving_holds (Entry now (Command c) st out :: h) (k, a, p, l) <-> In (k, a, p, l) (map stored (resolving s')))) as REJ.
      { intros st' E NS NR. injection E as <- <- <-. rewrite <- (IH (k, a, p, l)). split; intros A.
        - inversion A; subst; [congruence|assumption].
        - apply holds_still; [exact A|congruence|congruence|exact NR]. }
      destruct c; try discriminate; cbn [LeHost.step run_command] in S.
      * unfold reset, loud in S. injection S as <- <- <-. split; [|intros []]. intros A. inversion A; subst. congruence.
      * unfold add_resolving_list, quiet in S.
        destruct (_ && _); [apply (REJ _ S); congruence|]. destruct (_ <=? _); [apply (REJ _ S); congruence|].
        destruct (existsb _ _) eqn:EX; [apply (REJ _ S); congruence|]. injection S as <- <- <-. le_simpl.
        rewrite map_app, in_app_iff. cbn [map In]. rewrite <- (IH (k, a, p, l)). split.
        -- intros A. inversion A; subst; [right; left; reflexivity|now left].
        -- intros [A|[A|[]]].
           ++ apply holds_still; [exact A|congruence|congruence|congruence].
           ++ unfold stored in A. cbn in A. injection A as <- <- <- <-. apply holds_add.
      * unfold remove_resolving_list, quiet in S. destruct (_ && _); [apply (REJ _ S); congruence|].
        destruct (remove_first _ _) as [l2|] eqn:R; [|apply (REJ _ S); congruence]. injection S as <- <- <-. le_simpl.
        split.
        -- intros A. inversion A as [|? ? ? ? ? ? ? ? ? A' N1]; subst. apply IH in A'. rewrite in_map_iff in *.
           destruct A' as (e & E & IN). exists e. split; [exact E|].
           apply (remove_first_in _ (is_identity k0 a0) (is_identity k0 a0) _ _ _ R); [auto| |exact IN].
           destruct (is_identity k0 a0 e) eqn:I; [|reflexivity]. apply is_identity_spec in I.
           unfold stored in E. unfold identity in I. injection I as <- <-. injection E as <- <- <- <-. now elim N1.
        -- rewrite in_map_iff. intros (e & E & IN). apply holds_still; [|intros EQ _|congruence|congruence].
           ++ apply IH. rewrite in_map_iff. exists e. split; [exact E|]. exact (remove_first_incl _ _ _ _ _ R IN).
           ++ injection EQ as -> ->. apply (remove_first_nodup_gone _ _ _ identity (k, a) _ _ e R U); [apply is_identity_spec|exact IN|].
              unfold stored in E. unfold identity. now injection E as <- <- <- <-.
      * unfold clear_resolving_list, quiet in S. destruct (_ && _); [apply (REJ _ S); congruence|].
        injection S as <- <- <-. le_simpl. split; [|intros []]. intros A. inversion A; subst.
        match goal with X : ?c = ?c -> Some SUCCESS <> _ |- _ => now elim (X eq_refl) end.
Qed.

(** * Periodic advertiser list *)

Lemma step_padv : forall now s o s' st out, step now s o = Ok s' st out -> touches o PPadv = false -> padv s' = padv s.
Proof. intros now s o s' st out H T. exact (step_same _ _ _ _ _ _ _ _ _ H PPadv T). Qed.

Lemma padv_match_spec : forall k a sid e, padv_match k a sid e = true <-> e = (k, a, sid).
Proof.
  intros k a sid [[k' a'] sid']. unfold padv_match. rewrite !andb_true_iff, peer_type_eqb_eq, list_eqb_eq, N.eqb_eq.
  split; [intros [[-> ->] ->]; reflexivity|]. intros E. now injection E as -> -> ->.
Qed.

Lemma padv_ok : forall h s, history h s -> NoDup (padv s) /\ lenN (padv s) <= cfg_padv_size cfg.
Proof.
  apply history_invariant.
  - intros addr. split; [constructor|apply N.le_0_l].
  - intros now s o s' st out I S. destruct (touches o PPadv) eqn:T; [|now rewrite (step_padv _ _ _ _ _ _ S T)].
    destruct o as [c|p|]; [|destruct p; discriminate|discriminate]. destruct c; try discriminate;
      cbn [LeHost.step run_command] in S.
    + unfold reset, loud in S. injection S as <- <- <-. split; [constructor|apply N.le_0_l].
    + unfold add_padv, quiet in S. destruct (is_some _); [injection S as <- <- <-; assumption|].
      destruct (N.leb_spec (cfg_padv_size cfg) (lenN (padv s))) as [L|L]; [injection S as <- <- <-; assumption|].
      destruct (existsb _ _) eqn:EX; injection S as <- <- <-; [assumption|]. le_simpl. destruct I as [I1 I2]. split.
      * apply nodup_app_one; [exact I1|]. intros IN.
        assert (existsb (padv_match k a sid) (padv s) = true); [|congruence].
        apply existsb_exists. exists (k, a, sid). split; [exact IN|now apply padv_match_spec].
      * rewrite lenN_app. change (lenN [_]) with 1. lia.
    + unfold remove_padv, quiet in S. destruct (is_some _); [injection S as <- <- <-; assumption|].
      destruct (remove_first _ _) as [l|] eqn:R; injection S as <- <- <-; [|assumption]. le_simpl. destruct I as [I1 I2]. split.
      * rewrite <- (map_id (padv s)) in I1. rewrite <- (map_id l). exact (remove_first_nodup_map _ _ _ _ _ _ R I1).
      * apply remove_first_length in R. lia.
    + unfold clear_padv, quiet in S. destruct (is_some _); injection S as <- <- <-; [assumption|].
      split; [constructor|apply N.le_0_l].
Qed.

Lemma padv_frozen : forall now s c, sync_pending s -> changes_padv c ->
  step now s (Command c) = Ok s (Some COMMAND_DISALLOWED) [].
Proof.
  intros now s c P C. unfold sync_pending in P.
  assert (is_some (syncing s) = true) as E by (destruct (syncing s); [reflexivity|now elim P]).
  destruct C as [->|[(k & a & sid & ->)|(k & a & sid & ->)]]; cbn [LeHost.step run_command];
    unfold clear_padv, add_padv, remove_padv, quiet; now rewrite E.
Qed.

Lemma padv_kept : forall now s o s' st out, sync_pending s -> o <> Command Reset ->
  step now s o = Ok s' st out -> padv s' = padv s.
Proof.
  intros now s o s' st out U R S. destruct (touches o PPadv) eqn:T; [|exact (step_padv _ _ _ _ _ _ S T)].
  destruct o as [c|p|]; [|destruct p; discriminate|discriminate].
  assert (changes_padv c) as C.
  { unfold changes_padv. destruct c; try discriminate; eauto 10. now elim R. }
  rewrite (padv_frozen now s c U C) in S. injection S as <- <- <-. reflexivity.
Qed.

Lemma padv_replay : forall h s, history h s -> forall x, padv_holds h x <-> In x (padv s).
Proof.
  intros h s H. induction H as [addr|h s now o s' st out H IH S]; intros x.
  - split; [intros A; inversion A|intros []].
  - destruct (padv_ok _ _ H) as [U _]. destruct x as [[k a] sid].
    assert (forall t, touches o PPadv = t -> t = false \/ t = true) as TC by (intros []; auto).
    destruct (TC _ eq_refl) as [T|T]; clear TC.
    + rewrite (step_padv _ _ _ _ _ _ S T). rewrite <- (IH (k, a, sid)). split; intros A.
      * inversion A; subst; [discriminate|assumption].
      * apply padv_still; [exact A|intros ->; discriminate|intros ->; discriminate|intros ->; discriminate].
    + destruct o as [c|q|]; [|destruct q; discriminate|discriminate].
      assert (forall st', Ok s (Some st') [] = Ok s' st out -> st' <> SUCCESS ->
         ~ (Command c = Command Reset) ->
         (padv_holds (Entry now (Command c) st out :: h) (k, a, sid) <-> In (k, a, sid) (padv s'))) as REJ.
      { intros st' E NS NR. injection E as <- <- <-. rewrite <- (IH (k, a, sid)). split; intros A.
        - inversion A; subst; [congruence|assumption].
        - apply padv_still; [exact A|congruence|congruence|exact NR]. }
      destruct c; try discriminate; cbn [LeHost.step run_command] in S.
      * unfold reset, loud in S. injection S as <- <- <-. split; [|intros []]. intros A. inversion A; subst. congruence.
      * unfold add_padv, quiet in S.
        destruct (is_some _); [apply (REJ _ S); congruence|]. destruct (_ <=? _); [apply (REJ _ S); congruence|].
        destruct (existsb _ _) eqn:EX; [apply (REJ _ S); congruence|]. injection S as <- <- <-. le_simpl.
        rewrite in_app_iff. cbn [In]. rewrite <- (IH (k, a, sid)). split.
        -- intros A. inversion A; subst; [right; left; reflexivity|now left].
        -- intros [A|[A|[]]].
           ++ apply padv_still; [exact A|congruence|congruence|congruence].
           ++ injection A as <- <- <-. apply padv_add.
      * unfold remove_padv, quiet in S. destruct (is_some _); [apply (REJ _ S); congruence|].
        destruct (remove_first _ _) as [l2|] eqn:R; [|apply (REJ _ S); congruence]. injection S as <- <- <-. le_simpl.
        split.
        -- intros A. inversion A as [|? ? ? ? ? ? ? ? A' N1]; subst. apply IH in A'.
           apply (remove_first_in _ (padv_match k0 a0 sid0) (padv_match k0 a0 sid0) _ _ _ R); [auto| |exact A'].
           destruct (padv_match k0 a0 sid0 (k, a, sid)) eqn:I; [|reflexivity]. apply padv_match_spec in I.
           injection I as <- <- <-. now elim N1.
        -- intros IN. apply padv_still; [|intros EQ _|congruence|congruence].
           ++ apply IH. exact (remove_first_incl _ _ _ _ _ R IN).
           ++ injection EQ as -> -> ->. rewrite <- (map_id (padv s)) in U.
              apply (remove_first_nodup_gone _ _ _ (fun x => x) (k, a, sid) _ _ _ R U (padv_match_spec k a sid) IN). reflexivity.
      * unfold clear_padv, quiet in S. destruct (is_some _); [apply (REJ _ S); congruence|].
        injection S as <- <- <-. le_simpl. split; [|intros []]. intros A. inversion A; subst.
        match goal with X : ?c = ?c -> Some SUCCESS <> _ |- _ => now elim (X eq_refl) end.
Qed.

End WithController.
