(** The invariant of the isochronous stream manager. *)
From Verif Require Import Prelude Table Iso IsoSpec.
Open Scope N_scope.
Ltac Zify.zify_post_hook ::= Z.div_mod_to_equations.

Lemma bind_some {A B} (x : option A) (f : A -> option B) y :
  bind x f = Some y -> exists a, x = Some a /\ f a = Some y.
Proof. destruct x as [a|]; cbn; [eauto|discriminate]. Qed.

(** Break the binds, matches and conditionals of a successful computation. *)
Ltac open H :=
  repeat (cbv beta iota zeta in H;
    match type of H with
    | bind _ _ = Some _ =>
        let a := fresh "a" in let E := fresh "E" in
        apply bind_some in H as (a & E & H);
        try (match type of a with (_ * _)%type => destruct a as [? ?] end)
    | (if ?b then _ else _) = Some _ => let E := fresh "E" in destruct b eqn:E
    | match ?x with _ => _ end = Some _ => let E := fresh "E" in destruct x eqn:E; try discriminate H
    | None = Some _ => discriminate H
    end).

Definition idle_request (s : state) (r : request) : Prop :=
  exists c, lookup (conns s) (r_handle r) = Some c /\ c_role c = CENTRAL /\
            c_phase c = Configuration /\ c_cig c = r_cig r /\ c_cis c = r_cis r.

Definition phase_role (c : cis) : Prop :=
  match c_phase c with
  | Configuration | PendingRsp => c_role c = CENTRAL
  | PendingAccept | PendingInd => c_role c = PERIPHERAL
  | Connected => True
  end.

Definition attached (c : cis) : Prop :=
  c_phase c <> Configuration -> c_acl c <> None /\ c_params c <> None.

Definition cis_ok (s : state) (h : N) (c : cis) : Prop :=
  c_handle c = h /\ In h (range 0xe00 254) /\ byte (c_cis c) /\ byte (c_cig c) /\ phase_role c /\ attached c /\
  (c_role c = CENTRAL -> has (cigs s) (c_cig c) = true /\ has (configs s) (key (c_cig c) (c_cis c)) = true).

Record inv (s : state) : Prop := {
  inv_nodup : NoDup (keys (conns s));
  inv_cis : forall h c, lookup (conns s) h = Some c -> cis_ok s h c;
  inv_unique : forall h1 c1 h2 c2,
    lookup (conns s) h1 = Some c1 -> lookup (conns s) h2 = Some c2 ->
    c_role c1 = CENTRAL -> c_role c2 = CENTRAL -> c_cig c1 = c_cig c2 -> c_cis c1 = c_cis c2 -> h1 = h2;
  inv_queue : NoDup (map r_handle (queue s));
  inv_requests : forall r, In r (queue s) -> idle_request s r }.

Lemma inv_initial : inv initial.
Proof. split; cbn; try constructor; try discriminate; try tauto. Qed.

Lemma range_in a n x : In x (range a n) <-> a <= x < a + N.of_nat n.
Proof.
  revert a; induction n as [|n IH]; intros a; cbn [range In]; [lia|].
  rewrite IH. lia.
Qed.

Lemma new_cis_handle_spec s h :
  new_cis_handle s = Some h -> In h (range 0xe00 254) /\ lookup (conns s) h = None.
Proof.
  unfold new_cis_handle. intros H. apply find_some in H as [H1 H2]. split; [exact H1|].
  rewrite negb_true_iff, has_lookup in H2. now destruct (lookup (conns s) h).
Qed.

Lemma find_values (P : cis -> bool) m c :
  NoDup (keys m) -> find P (values m) = Some c -> exists h, lookup m h = Some c /\ P c = true.
Proof.
  intros N H. apply find_some in H as [H1 H2]. unfold values in H1. apply in_map_iff in H1 as ([h d] & E & H1).
  cbn in E. subst d. exists h. split; [now apply in_lookup_nodup|exact H2].
Qed.

Lemma find_values_none (P : cis -> bool) m h c :
  find P (values m) = None -> lookup m h = Some c -> P c = false.
Proof.
  intros H L. apply lookup_pair in L. eapply find_none in H; [exact H|].
  unfold values. apply in_map_iff. now exists (h, c).
Qed.

Lemma role_eqb_eq a b : role_eqb a b = true <-> a = b.
Proof. destruct a, b; cbn; split; intros; try discriminate; auto. Qed.
Lemma phase_eqb_eq a b : phase_eqb a b = true <-> a = b.
Proof. destruct a, b; cbn; split; intros; try discriminate; auto. Qed.
Lemma phase_eqb_neq a b : phase_eqb a b = false <-> a <> b.
Proof. rewrite <- phase_eqb_eq. destruct (phase_eqb a b); split; intros; try discriminate; auto. now elim H. Qed.
Lemma optN_eqb_eq a b : optN_eqb a b = true <-> a = Some b.
Proof.
  destruct a as [x|]; cbn; [rewrite N.eqb_eq|]; split; intros H; try discriminate; congruence.
Qed.

Lemma is_cis_spec g c r x : is_cis g c r x = true <-> c_cig x = g /\ c_cis x = c /\ c_role x = r.
Proof. unfold is_cis. rewrite !andb_true_iff, !N.eqb_eq, role_eqb_eq. tauto. Qed.

Lemma nth_mod_in (pick : nat) (l : list N) d : l <> [] -> In (nth (Nat.modulo pick (length l)) l d) l.
Proof. intros H. apply nth_In, Nat.mod_upper_bound. destruct l; [congruence|discriminate]. Qed.

Lemma choose_in pick l h : choose pick l = Some h -> In h l.
Proof.
  unfold choose. destruct l as [|x l]; [discriminate|]. intros H.
  pose proof (nth_mod_in pick (x :: l) x) as K.
  assert (nth (Nat.modulo pick (length (x :: l))) (x :: l) x = h) as <- by congruence.
  apply K. discriminate.
Qed.

Lemma find_cis_spec pick P s h :
  inv s -> find_cis pick P s = Some h -> exists c, lookup (conns s) h = Some c /\ P c = true.
Proof.
  intros I H. unfold find_cis in H. apply choose_in in H as K.
  unfold keys in K. apply in_map_iff in K as ([k c] & K1 & K2). cbn in K1. subst k.
  apply filter_In in K2 as [K2 K3]. exists c. split; [|exact K3].
  apply in_lookup_nodup; [apply I|exact K2].
Qed.

(** Changing one stream without changing what it is *)
Lemma inv_modify s h c c' :
  inv s -> lookup (conns s) h = Some c ->
  c_cig c' = c_cig c -> c_cis c' = c_cis c -> c_role c' = c_role c -> c_handle c' = c_handle c ->
  phase_role c' -> attached c' ->
  (~ In h (map r_handle (queue s)) \/ c_phase c' = Configuration) ->
  inv (with_conns (put (conns s) h c') s).
Proof.
  intros I L E1 E2 E3 E4 PR AT Q. destruct I as [I1 I2 I3 I4 I5].
  split; cbn [conns with_conns queue].
  - now apply nodup_put.
  - intros k d. rewrite lookup_put. destruct (N.eqb_spec k h) as [->|NE].
    + intros [= <-]. destruct (I2 _ _ L) as (A & B & C & C' & _ & _ & D).
      split; [congruence|]. split; [exact B|]. split; [now rewrite E2|]. split; [now rewrite E1|].
      split; [exact PR|]. split; [exact AT|]. rewrite E1, E2, E3. exact D.
    + apply I2.
  - intros h1 c1 h2 c2. rewrite !lookup_put.
    destruct (N.eqb_spec h1 h) as [->|N1], (N.eqb_spec h2 h) as [->|N2]; intros L1 L2; try reflexivity.
    + injection L1 as <-. rewrite E1, E2, E3. intros. eapply I3; eauto.
    + injection L2 as <-. rewrite E1, E2, E3. intros. eapply I3; eauto.
    + eauto.
  - exact I4.
  - intros r R. destruct (I5 r R) as (d & D1 & D2 & D3 & D4 & D5). unfold idle_request. cbn [conns with_conns].
    rewrite lookup_put. destruct (N.eqb_spec (r_handle r) h) as [E|E].
    + rewrite E in D1. assert (d = c) by congruence. subst d. exists c'. split; [reflexivity|].
      rewrite E1, E2, E3. split; [exact D2|]. split; [|auto].
      destruct Q as [Q|Q]; [|exact Q]. elim Q. rewrite <- E. now apply in_map.
    + exists d. auto.
Qed.

(** A stream that was not there *)
Lemma inv_insert s h c :
  inv s -> lookup (conns s) h = None -> cis_ok s h c ->
  (c_role c = CENTRAL -> forall k d, lookup (conns s) k = Some d -> is_cis (c_cig c) (c_cis c) CENTRAL d = false) ->
  inv (with_conns (put (conns s) h c) s).
Proof.
  intros I L OK U. destruct I as [I1 I2 I3 I4 I5]. split; cbn [conns with_conns queue].
  - now apply nodup_put.
  - intros k d. rewrite lookup_put. destruct (N.eqb_spec k h) as [->|NE]; [intros [= <-]; exact OK|apply I2].
  - assert (X : forall k d, lookup (conns s) k = Some d -> c_role c = CENTRAL -> c_role d = CENTRAL ->
                c_cig c = c_cig d -> c_cis c = c_cis d -> False).
    { intros k d K R1 R2 R3 R4. specialize (U R1 _ _ K).
      assert (is_cis (c_cig c) (c_cis c) CENTRAL d = true) by (apply is_cis_spec; auto). congruence. }
    intros h1 c1 h2 c2. rewrite !lookup_put.
    destruct (N.eqb_spec h1 h) as [->|N1], (N.eqb_spec h2 h) as [->|N2]; intros L1 L2; try reflexivity.
    + injection L1 as <-. intros. exfalso. eapply X; eauto.
    + injection L2 as <-. intros. exfalso. eapply X; [exact L1| | | |]; auto.
    + eauto.
  - exact I4.
  - intros r R. destruct (I5 r R) as (d & D1 & D2). exists d. cbn [conns with_conns]. rewrite lookup_put.
    destruct (N.eqb_spec (r_handle r) h) as [E|E]; [congruence|auto].
Qed.

Lemma inv_erase s h :
  inv s -> ~ In h (map r_handle (queue s)) -> inv (with_conns (erase (conns s) h) s).
Proof.
  intros [I1 I2 I3 I4 I5] Q. split; cbn [conns with_conns queue].
  - now apply nodup_erase.
  - intros k d. rewrite lookup_erase. destruct (k =? h); [discriminate|apply I2].
  - intros h1 c1 h2 c2. rewrite !lookup_erase. destruct (h1 =? h), (h2 =? h); try discriminate. apply I3.
  - exact I4.
  - intros r R. destruct (I5 r R) as (d & D1 & D2). exists d. cbn [conns with_conns]. rewrite lookup_erase.
    destruct (N.eqb_spec (r_handle r) h) as [E|E]; [|auto]. elim Q. rewrite <- E. now apply in_map.
Qed.

(** A stream whose creation is queued is in the configuration phase *)
Lemma not_queued s h c :
  inv s -> lookup (conns s) h = Some c -> c_phase c <> Configuration -> ~ In h (map r_handle (queue s)).
Proof.
  intros I L P Q. apply in_map_iff in Q as (r & <- & R). destruct (inv_requests _ I r R) as (d & D1 & _ & D3 & _).
  congruence.
Qed.
Lemma not_queued_role s h c :
  inv s -> lookup (conns s) h = Some c -> c_role c <> CENTRAL -> ~ In h (map r_handle (queue s)).
Proof.
  intros I L P Q. apply in_map_iff in Q as (r & <- & R). destruct (inv_requests _ I r R) as (d & D1 & D2 & _).
  congruence.
Qed.

(** Changing only the groups and configurations, keeping every key *)
Lemma inv_more s s' :
  inv s -> conns s' = conns s -> queue s' = queue s ->
  (forall k, has (cigs s) k = true -> has (cigs s') k = true) ->
  (forall k, has (configs s) k = true -> has (configs s') k = true) -> inv s'.
Proof.
  intros [I1 I2 I3 I4 I5] E1 E2 C1 C2. split; rewrite ?E1, ?E2; auto.
  - intros h c L. destruct (I2 h c L) as (A & B & C & C' & D & F & G).
    repeat (split; [assumption|]). intros R. destruct (G R). split; auto.
  - intros r R. destruct (I5 r R) as (d & D). exists d. now rewrite E1.
Qed.

Lemma has_put {C} (m : table C) h c k : has (put m h c) k = (k =? h) || has m k.
Proof. rewrite !has_lookup, lookup_put. destruct (k =? h); reflexivity. Qed.
Lemma has_erase {C} (m : table C) h k : has (erase m h) k = negb (k =? h) && has m k.
Proof. rewrite !has_lookup, lookup_erase. destruct (k =? h); reflexivity. Qed.

Lemma new_cis_inv g c s s' h :
  inv s -> byte g -> byte c -> has (cigs s) g = true -> has (configs s) (key g c) = true ->
  new_cis g c CENTRAL s = Some (s', h) ->
  inv s' /\ cigs s' = cigs s /\ configs s' = configs s.
Proof.
  intros I B1 B2 G C. unfold new_cis. destruct (find _ _) as [x|] eqn:F; intros H.
  - injection H as <- <-. auto.
  - open H. injection H as <- <-. split; [|now split].
    apply new_cis_handle_spec in E as [R L]. apply inv_insert; auto.
    + unfold cis_ok, phase_role, attached. cbn. split; [reflexivity|]. split; [exact R|].
      split; [exact B2|]. split; [exact B1|]. split; [reflexivity|]. split; [congruence|]. auto.
    + intros _ k d K. eapply find_values_none; eauto.
Qed.

Lemma add_entries_inv g l : forall s s' hs,
  inv s -> byte g -> Forall entry_fields l -> has (cigs s) g = true ->
  add_entries g l s = Some (s', hs) -> inv s'.
Proof.
  induction l as [|n l IH]; intros s s' hs I B F G H; cbn [add_entries] in H.
  - now injection H as <- <-.
  - open H. injection H as <- <-. inversion F as [|? ? F1 F2]; subst.
    eapply new_cis_inv in E as (I' & E1 & E2); auto.
    + eapply IH; [exact I'| | | |exact E0]; auto. now rewrite E1.
    + apply (inv_more s); auto. cbn. intros k K. rewrite has_put, K. apply orb_true_r.
    + apply F1.
    + cbn. rewrite has_put, N.eqb_refl. reflexivity.
Qed.

Lemma set_cig_common_inv g s l s' hs x :
  inv s -> byte g -> Forall entry_fields l ->
  add_entries g l (with_cigs (put (cigs s) g x) s) = Some (s', hs) -> inv s'.
Proof.
  intros I B F H. eapply add_entries_inv; [| | | |exact H]; auto.
  - apply (inv_more s); auto. cbn. intros k K. rewrite has_put, K. apply orb_true_r.
  - cbn. rewrite has_put, N.eqb_refl. reflexivity.
Qed.

Lemma lookup_filter {C} (f : N * C -> bool) m h :
  NoDup (keys m) -> lookup (filter f m) h = match lookup m h with Some c => if f (h, c) then Some c else None | None => None end.
Proof.
  induction m as [|[k c] m IH]; cbn [filter lookup]; [reflexivity|].
  intros N. inversion N as [|? ? N1 N2]; subst. destruct (f (k, c)) eqn:F; cbn [lookup].
  - destruct (N.eqb_spec k h) as [->|E]; [now rewrite F|auto].
  - destruct (N.eqb_spec k h) as [->|E]; [|auto]. rewrite F, IH by exact N2.
    destruct (lookup m h) as [d|] eqn:L; [|reflexivity]. apply lookup_in in L. now elim N1.
Qed.

Lemma nodup_filter {C} (f : N * C -> bool) m : NoDup (keys m) -> NoDup (keys (filter f m)).
Proof.
  unfold keys. induction m as [|[k c] m IH]; cbn; [auto|]. intros N. inversion N as [|? ? N1 N2]; subst.
  destruct (f (k, c)); [|auto]. cbn. constructor; [|auto]. intros H. apply N1.
  apply in_map_iff in H as (e & E & H). apply filter_In in H as [H _]. apply in_map_iff. eauto.
Qed.

Lemma has_filter_key {C} (f : N -> bool) (m : table C) h :
  has (filter (fun e => f (fst e)) m) h = f h && has m h.
Proof.
  unfold has. induction m as [|[k c] m IH]; cbn [filter existsb fst]; [now rewrite andb_false_r|].
  destruct (f k) eqn:F; cbn [existsb fst]; rewrite IH.
  - destruct (N.eqb_spec k h) as [->|E]; [now rewrite F|]. reflexivity.
  - destruct (N.eqb_spec k h) as [->|E]; [now rewrite F|]. reflexivity.
Qed.

Lemma remove_cig_inv g s s' out :
  inv s -> (forall r, In r (queue s) -> r_cig r <> g) -> remove_cig g s = Some (s', out) -> inv s'.
Proof.
  intros I Q H. unfold remove_cig, fail in H. open H; injection H as <- <-; auto.
  destruct I as [I1 I2 I3 I4 I5]. split; cbn [conns queue with_conns with_configs with_cigs].
  - now apply nodup_filter.
  - intros h c. rewrite lookup_filter by exact I1. destruct (lookup (conns s) h) as [d|] eqn:L; [|discriminate].
    cbn [snd]. destruct (_ || _) eqn:K; [|discriminate]. intros [= ->].
    destruct (I2 _ _ L) as (A & B & C & C' & D & F & G). repeat (split; [assumption|]).
    intros R. rewrite R in K. cbn in K. rewrite negb_true_iff, N.eqb_neq in K.
    destruct (G R) as [G1 G2]. cbn. split.
    + rewrite has_erase, G1. apply N.eqb_neq in K. now rewrite K.
    + rewrite (has_filter_key (fun k => negb (k / 256 =? g))), G2.
      assert (key (c_cig c) (c_cis c) / 256 = c_cig c) as ->
        by (unfold key, byte in *; lia).
      apply N.eqb_neq in K. now rewrite K.
  - intros h1 c1 h2 c2. rewrite !lookup_filter by exact I1.
    destruct (lookup (conns s) h1) as [d1|] eqn:L1; [|discriminate].
    destruct (lookup (conns s) h2) as [d2|] eqn:L2; [|intros; discriminate].
    destruct (_ || _); [|discriminate]. intros [= ->]. destruct (_ || _); [|discriminate]. intros [= ->].
    eapply I3; eauto.
  - exact I4.
  - intros r R. destruct (I5 r R) as (d & D1 & D2 & D3 & D4 & D5). exists d. cbn.
    rewrite lookup_filter by exact I1. rewrite D1. cbn [snd]. rewrite D2, D4. cbn.
    specialize (Q r R). apply N.eqb_neq in Q. rewrite Q. cbn. auto.
Qed.

Lemma freeze_spec l : forall s s',
  freeze l s = Some s' ->
  conns s' = conns s /\ queue s' = queue s /\ configs s' = configs s /\ acls s' = acls s /\
  bigs s' = bigs s /\ biss s' = biss s /\
  (forall k, has (cigs s') k = has (cigs s) k).
Proof.
  induction l as [|r l IH]; intros s s' H; cbn [freeze] in H.
  - injection H as <-. auto 10.
  - open H. apply IH in H as (H1 & H2 & H3 & H4 & H5 & H6 & H7). cbn in *.
    repeat (split; [assumption|]). intros k. rewrite H7, has_put.
    destruct (N.eqb_spec k (r_cig r)) as [->|E0]; [|reflexivity]. now rewrite has_lookup, E.
Qed.

Lemma deque_inv s s' out :
  inv s -> deque s = Some (s', out) -> inv s'.
Proof.
  intros I H. unfold deque in H. destruct (queue s) as [|r q] eqn:Q; [now injection H as <- <-|].
  open H. injection H as <- <-.
  pose proof (inv_queue _ I) as ND. rewrite Q in ND. cbn in ND. inversion ND as [|? ? N1 N2]; subst.
  destruct (inv_requests _ I r) as (d & D1 & D2 & D3 & D4 & D5); [rewrite Q; now left|].
  assert (J : inv (with_queue q s)).
  { destruct I as [I1 I2 I3 I4 I5]. split; cbn; auto.
    intros x X. destruct (I5 x) as (y & Y); [rewrite Q; now right|]. exists y. exact Y. }
  assert (a2 = d) by congruence. subst.
  change (inv (with_conns (put (conns (with_queue q s)) (r_handle r)
      (with_c_params (Some a1) (with_c_phase PendingRsp (with_c_acl (Some (r_acl r)) d)))) (with_queue q s))).
  eapply inv_modify; [exact J|exact D1|reflexivity|reflexivity|reflexivity|reflexivity| | |].
  - exact D2.
  - intros _. split; discriminate.
  - left. exact N1.
Qed.

Lemma check_requests_spec s l : forall done rs,
  inv s ->
  NoDup (map r_handle done) -> (forall r, In r done -> idle_request s r) ->
  check_requests s l done = inr rs ->
  NoDup (map r_handle rs) /\ (forall r, In r rs -> idle_request s r).
Proof.
  induction l as [|[h a] l IH]; intros done rs I N D H; cbn [check_requests] in H.
  - injection H as <-. auto.
  - destruct (lookup (acls s) a) as [[]|]; try discriminate.
    destruct (lookup (conns s) h) as [c|] eqn:L; [|discriminate].
    destruct (phase_eqb (c_phase c) Configuration) eqn:P; [|discriminate]. cbn in H.
    destruct (existsb (fun r => r_handle r =? h) done) eqn:X; [discriminate|].
    apply IH in H; auto.
    + rewrite map_app. cbn. apply NoDup_rev in N. rewrite <- (rev_involutive (map r_handle done ++ [h])).
      apply NoDup_rev. rewrite rev_app_distr. cbn. constructor; [|exact N]. rewrite <- in_rev.
      intros K. apply in_map_iff in K as (r & K1 & K2).
      assert (existsb (fun r => r_handle r =? h) done = true) by (apply existsb_exists; exists r; split; [auto|now apply N.eqb_eq]).
      congruence.
    + intros r R. apply in_app_or in R as [R|[<-|[]]]; [auto|]. exists c. cbn.
      apply phase_eqb_eq in P. repeat split; auto.
      destruct (inv_cis _ I _ _ L) as (_ & _ & _ & _ & PR & _). unfold phase_role in PR. now rewrite P in PR.
Qed.

Lemma create_cis_inv e l s s' out : inv s -> create_cis e l s = Some (s', out) -> inv s'.
Proof.
  intros I H. unfold create_cis, fail in H. destruct (check_requests s l []) as [st|rs] eqn:C.
  { now injection H as <- <-. }
  apply check_requests_spec in C as [C1 C2]; [|exact I|constructor|intros ? []].
  destruct (queue s) eqn:Q; [|now injection H as <- <-].
  open H; [now injection H as <- <-|]. injection H as <- <-.
  apply freeze_spec in E0 as (F1 & F2 & F3 & F4 & F5 & F6 & F7).
  eapply deque_inv; [|exact E1].
  destruct I as [I1 I2 I3 I4 I5]. split; cbn; rewrite ?F1; auto.
  - intros h c L. destruct (I2 h c L) as (A & B & D & D' & F & G & K). repeat (split; [assumption|]).
    intros R. destruct (K R) as [K1 K2]. cbn. now rewrite F7, F3.
  - intros r R. destruct (C2 r R) as (d & D). exists d. cbn. now rewrite F1.
Qed.

Lemma filter_conns_map acl m h :
  lookup (map (fun e => (fst e, unlink acl (snd e))) m) h = option_map (unlink acl) (lookup m h).
Proof.
  induction m as [|[k c] m IH]; cbn; [reflexivity|]. destruct (k =? h); [reflexivity|exact IH].
Qed.

Lemma unlink_same acl c : c_cig (unlink acl c) = c_cig c /\ c_cis (unlink acl c) = c_cis c /\
  c_role (unlink acl c) = c_role c /\ c_handle (unlink acl c) = c_handle c.
Proof. unfold unlink. destruct (optN_eqb _ _); cbn; auto. Qed.

Lemma remove_acl_inv acl reason s : inv s -> inv (fst (remove_acl acl reason s)).
Proof.
  intros [I1 I2 I3 I4 I5]. unfold remove_acl. cbn [fst].
  set (F := fun e : N * cis => role_eqb (c_role (snd e)) CENTRAL || negb (optN_eqb (c_acl (snd e)) acl)).
  split; cbn [conns queue with_queue with_conns with_acls].
  - unfold keys. rewrite map_map. cbn [fst]. apply (nodup_filter F). exact I1.
  - intros h c. rewrite filter_conns_map, lookup_filter by exact I1.
    destruct (lookup (conns s) h) as [d|] eqn:L; [|discriminate].
    destruct (F (h, d)) eqn:K; [|discriminate]. cbn. intros [= <-].
    destruct (I2 _ _ L) as (A & B & C & C' & D & G & M).
    destruct (unlink_same acl d) as (U1 & U2 & U3 & U4).
    split; [congruence|]. split; [exact B|]. split; [congruence|]. split; [congruence|].
    unfold F in K. cbn in K. rewrite U1, U2, U3.
    split; [|split; [|exact M]]; unfold phase_role, attached, unlink in *;
      destruct (optN_eqb (c_acl d) acl); cbn; auto.
    cbn [negb] in K. rewrite orb_false_r in K. now apply role_eqb_eq in K.
  - intros h1 c1 h2 c2. rewrite !filter_conns_map, !lookup_filter by exact I1.
    destruct (lookup (conns s) h1) as [d1|] eqn:L1; [|discriminate].
    destruct (lookup (conns s) h2) as [d2|] eqn:L2; [|intros; discriminate].
    destruct (F _); [|discriminate]. cbn. intros [= <-]. destruct (F _); [|discriminate]. cbn. intros [= <-].
    destruct (unlink_same acl d1) as (U1 & U2 & U3 & U4).
    destruct (unlink_same acl d2) as (V1 & V2 & V3 & V4). rewrite U1, U2, U3, V1, V2, V3. eapply I3; eauto.
  - clear - I4. induction (queue s) as [|r q IH]; cbn; [constructor|]. cbn in I4.
    inversion I4 as [|? ? N1 N2]; subst. destruct (negb _); [|auto]. cbn. constructor; [|auto].
    intros H. apply N1. apply in_map_iff in H as (x & E & H). apply filter_In in H as [H _].
    rewrite <- E. now apply in_map.
  - intros r R. apply filter_In in R as [R _]. destruct (I5 r R) as (d & D1 & D2 & D3 & D4 & D5).
    exists (unlink acl d). cbn. rewrite filter_conns_map, lookup_filter by exact I1. rewrite D1. unfold F. cbn [snd].
    rewrite D2. cbn. destruct (unlink_same acl d) as (U1 & U2 & U3 & U4). rewrite U1, U2, U3.
    repeat split; auto. unfold unlink. destruct (optN_eqb _ _); cbn; auto.
Qed.

Lemma set_phase_connected_inv s h c :
  inv s -> lookup (conns s) h = Some c -> c_phase c = PendingRsp -> inv (set_phase Connected h s).
Proof.
  intros I L P. unfold set_phase. rewrite L.
  destruct (inv_cis _ I _ _ L) as (_ & _ & _ & _ & PR & AT & _).
  eapply inv_modify; [exact I|exact L|reflexivity|reflexivity|reflexivity|reflexivity| | |].
  - exact Logic.I.
  - intros _. apply AT. rewrite P. discriminate.
  - left. eapply not_queued; eauto. rewrite P. discriminate.
Qed.

Lemma reset_inv s h c p :
  inv s -> lookup (conns s) h = Some c -> c_role c = CENTRAL ->
  inv (with_conns (put (conns s) h (with_c_params p (with_c_phase Configuration c))) s).
Proof.
  intros I L P. eapply inv_modify; [exact I|exact L|reflexivity|reflexivity|reflexivity|reflexivity| | |].
  - exact P.
  - intros X. now elim X.
  - now right.
Qed.

Lemma accept_cis_inv h s s' out : inv s -> accept_cis h s = Some (s', out) -> inv s'.
Proof.
  intros I H. unfold accept_cis, fail in H. open H; injection H as <- <-; auto.
  destruct (inv_cis _ I _ _ E) as (_ & _ & _ & _ & PR & AT & _).
  rewrite negb_false_iff, phase_eqb_eq in E1.
  eapply inv_modify; [exact I|exact E|reflexivity|reflexivity|reflexivity|reflexivity| | |].
  - unfold phase_role in *. cbn. now rewrite E1 in PR.
  - intros _. apply AT. rewrite E1. discriminate.
  - left. eapply not_queued; eauto. rewrite E1. discriminate.
Qed.

Lemma reject_cis_inv h reason s s' out : inv s -> reject_cis h reason s = Some (s', out) -> inv s'.
Proof.
  intros I H. unfold reject_cis, fail in H. open H; injection H as <- <-; auto.
  rewrite negb_false_iff, phase_eqb_eq in E1. all: apply inv_erase; auto; eapply not_queued; eauto; rewrite E1; discriminate.
Qed.

Lemma attached_path c c' : attached c -> c_phase c' = c_phase c -> c_acl c' = c_acl c -> c_params c' = c_params c -> attached c'.
Proof. unfold attached. intros A -> -> ->. exact A. Qed.
Lemma phase_role_path c c' : phase_role c -> c_phase c' = c_phase c -> c_role c' = c_role c -> phase_role c'.
Proof. unfold phase_role. intros A -> ->. exact A. Qed.

Lemma inv_path s h c c' :
  inv s -> lookup (conns s) h = Some c ->
  c_cig c' = c_cig c -> c_cis c' = c_cis c -> c_role c' = c_role c -> c_handle c' = c_handle c ->
  c_phase c' = c_phase c -> c_acl c' = c_acl c -> c_params c' = c_params c ->
  inv (with_conns (put (conns s) h c') s).
Proof.
  intros I L E1 E2 E3 E4 E5 E6 E7. destruct (inv_cis _ I _ _ L) as (_ & _ & _ & _ & PR & AT & _).
  eapply inv_modify; [exact I|exact L|assumption|assumption|assumption|assumption| | |].
  - eapply phase_role_path; eauto.
  - eapply attached_path; eauto.
  - rewrite E5. destruct (phase_eqb (c_phase c) Configuration) eqn:P.
    + right. now apply phase_eqb_eq.
    + left. apply phase_eqb_neq in P. eapply not_queued; eauto.
Qed.

Lemma inv_same_streams s s' :
  inv s -> conns s' = conns s -> queue s' = queue s -> cigs s' = cigs s -> configs s' = configs s -> inv s'.
Proof. intros I E1 E2 E3 E4. apply (inv_more s); auto; intros k; rewrite ?E3, ?E4; auto. Qed.

Lemma setup_path_inv h o codec cc s s' out : inv s -> setup_path h o codec cc s = Some (s', out) -> inv s'.
Proof.
  intros I H. unfold setup_path, fail in H. open H; injection H as <- <-; auto;
    try (now apply (inv_same_streams s)).
  all: destruct (Bool.eqb o (role_eqb (c_role c) CENTRAL));
    (eapply inv_path; [exact I|eassumption|reflexivity|reflexivity|reflexivity|reflexivity|reflexivity|reflexivity|reflexivity]).
Qed.

Lemma remove_path_inv h i o s s' out : inv s -> remove_path h i o s = Some (s', out) -> inv s'.
Proof.
  intros I H. unfold remove_path, fail in H. open H; injection H as <- <-; auto;
    try (now apply (inv_same_streams s)).
  all: eapply inv_path; [exact I|eassumption|reflexivity|reflexivity|reflexivity|reflexivity|reflexivity|reflexivity|reflexivity].
Qed.

Lemma disconnect_inv h reason s s' out : inv s -> disconnect h reason s = Some (s', out) -> inv s'.
Proof.
  intros I H. unfold disconnect, fail in H.
  destruct (lookup (conns s) h) as [c|] eqn:L; [|now injection H as <- <-].
  assert (X : c_phase c = PendingRsp \/ c_phase c = Connected ->
    inv (if role_eqb (c_role c) CENTRAL then set_phase Configuration h s else with_conns (erase (conns s) h) s)).
  { intros P. destruct (role_eqb (c_role c) CENTRAL) eqn:R.
    - apply role_eqb_eq in R. unfold set_phase. rewrite L.
      change (with_c_phase Configuration c) with (with_c_params (c_params c) (with_c_phase Configuration c)).
      now apply reset_inv.
    - apply inv_erase; auto. eapply not_queued; eauto. destruct P as [-> | ->]; discriminate. }
  destruct (c_phase c) eqn:P; open H; injection H as <- <-; auto.
Qed.

Lemma cis_req_inv acl g c p s s' out : inv s -> byte g -> byte c -> cis_req acl g c p s = Some (s', out) -> inv s'.
Proof.
  intros I B1 B2 H. unfold cis_req in H. open H. injection H as <- <-.
  apply new_cis_handle_spec in E as [R L]. apply inv_insert; auto; cbn; [|discriminate].
  unfold cis_ok, phase_role, attached. cbn. split; [reflexivity|]. split; [exact R|]. split; [exact B2|].
  split; [exact B1|]. split; [reflexivity|]. split; [intros _; split; discriminate|discriminate].
Qed.

Lemma waiting_spec acl r p c : waiting acl r p c = true -> c_acl c = Some acl /\ c_role c = r /\ c_phase c = p.
Proof. unfold waiting. rewrite !andb_true_iff, optN_eqb_eq, role_eqb_eq, phase_eqb_eq. tauto. Qed.

Lemma cis_rsp_inv ck pick acl s s' out : inv s -> cis_rsp ck pick acl s = Some (s', out) -> inv s'.
Proof.
  intros I H. unfold cis_rsp in H. destruct (find_cis _ _ _) as [h|] eqn:F; [|now injection H as <- <-].
  apply find_cis_spec in F as (c & L & W); [|exact I]. apply waiting_spec in W as (_ & _ & W).
  open H. injection H as <- <-. eapply deque_inv; [|exact E2]. exact (set_phase_connected_inv _ _ _ I L W).
Qed.

Lemma reject_ext_inv pick acl code s s' out : inv s -> reject_ext pick acl code s = Some (s', out) -> inv s'.
Proof.
  intros I H. unfold reject_ext in H. open H; [|now injection H as <- <-].
  apply find_cis_spec in E0 as (c & L & W); [|exact I]. apply waiting_spec in W as (_ & W & _).
  injection H as <- <-. eapply deque_inv; [|exact E2]. assert (a = c) by congruence. subst a. now apply reset_inv.
Qed.

Lemma cis_ind_inv ck pick acl a b s s' out : inv s -> cis_ind ck pick acl a b s = Some (s', out) -> inv s'.
Proof.
  intros I H. unfold cis_ind in H. destruct (find_cis _ _ _) as [h|] eqn:F; [|now injection H as <- <-].
  apply find_cis_spec in F as (c & L & W); [|exact I]. apply waiting_spec in W as (W1 & W2 & W).
  open H. injection H as <- <-. assert (a0 = c) by congruence. subst a0.
  eapply inv_modify; [exact I|exact L|reflexivity|reflexivity|reflexivity|reflexivity| | |].
  - exact Logic.I.
  - intros _. cbn. rewrite W1. split; discriminate.
  - left. eapply not_queued; eauto. rewrite W. discriminate.
Qed.

Lemma cis_terminate_inv pick acl g c error s s' out :
  inv s -> (forall r, In r (queue s) -> ~ (r_cig r = g /\ r_cis r = c)) ->
  cis_terminate pick acl g c error s = Some (s', out) -> inv s'.
Proof.
  intros I Q H. unfold cis_terminate in H. open H; [|now injection H as <- <-].
  apply find_cis_spec in E as (d & L & W); [|exact I]. injection H as <- <-.
  apply inv_erase; [exact I|]. intros K. apply in_map_iff in K as (r & K1 & K2).
  destruct (inv_requests _ I r K2) as (x & X1 & X2 & X3 & X4 & X5). apply (Q r K2).
  rewrite !andb_true_iff, !N.eqb_eq in W. rewrite K1 in X1. assert (x = d) by congruence. subst x.
  destruct W as [[_ W1] W2]. split; congruence.
Qed.

Lemma run_inv ck e s o s' out : inv s -> orderly s o -> run ck e s o = Some (s', out) -> inv s'.
Proof.
  intros I [F O] H. destruct o; cbn [run fields] in *.
  - unfold set_cig, fail in H. destruct F as (F1 & _ & _ & _ & _ & F2 & _).
    open H; injection H as <- <-; auto. eapply set_cig_common_inv; eauto.
  - unfold set_cig_test, fail in H. destruct F as (F1 & _ & _ & _ & _ & _ & F2 & _).
    open H; injection H as <- <-; auto. eapply set_cig_common_inv; eauto.
  - eapply remove_cig_inv; eauto.
  - eapply create_cis_inv; eauto.
  - eapply accept_cis_inv; eauto.
  - eapply reject_cis_inv; eauto.
  - eapply setup_path_inv; eauto.
  - eapply remove_path_inv; eauto.
  - eapply disconnect_inv; eauto.
  - unfold create_big, fail in H. open H; injection H as <- <-; auto; now apply (inv_same_streams s).
  - unfold terminate_big, fail in H. open H; injection H as <- <-; auto; now apply (inv_same_streams s).
  - unfold add_link in H. open H. injection H as <- <-. now apply (inv_same_streams s).
  - unfold remove_link in H. open H. injection H as <- _. exact (remove_acl_inv _ reason _ I).
  - destruct p.
    + destruct F. eapply cis_req_inv; [exact I| | |exact H]; assumption.
    + eapply cis_rsp_inv; eauto.
    + eapply cis_ind_inv; eauto.
    + eapply cis_terminate_inv; eauto.
    + eapply reject_ext_inv; eauto.
    + discriminate.
Qed.

Lemma step_run ck e s o s' out :
  step ck e s o = Ok s' out -> run ck e s o = Some (s', out) /\ forallb fits out = true.
Proof.
  unfold step. destruct (run ck e s o) as [[t u]|]; [|discriminate].
  destruct (forallb fits u) eqn:F; [|discriminate]. intros [= <- <-]. auto.
Qed.

Lemma history_inv ck (P : state -> op -> Prop) h s :
  (forall s o, P s o -> orderly s o) -> history ck P h s -> inv s.
Proof.
  intros PO H. induction H; [apply inv_initial|]. apply step_run in H1 as [H1 _].
  eapply run_inv; eauto.
Qed.
